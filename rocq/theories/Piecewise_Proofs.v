(** Proofs for C34. *)

From Verif Require Import Base Dict Smt Smt_Facts Walk_Model Math_Model Math_Spec Poly_Proofs Arith_Proofs
  Piecewise_Model Piecewise_Spec.

(** What the proofs need of an algebra of keys. *)
Record piece_algebra {E} (A : alg E) (two : E) (wf : E -> Prop) (den : E -> env -> Qc) : Prop := {
  pa_real : forall q, wf (a_real A q) /\ forall e, den (a_real A q) e = q;
  pa_symbol : forall x, wf (a_symbol A x) /\ forall e, den (a_symbol A x) e = er e x;
  pa_two : wf two /\ forall e, den two e = qz 2;
  pa_times : forall a b, wf a -> wf b -> wf (alg_times A a b) /\
    forall e, den (alg_times A a b) e = (den a e * den b e)%Qc;
  pa_eq : forall a b e, wf a -> wf b -> a_eq A a b = true -> den a e = den b e;
  pa_refl : forall a, wf a -> a_eq A a a = true;
  pa_sym : forall a b, wf a -> wf b -> a_eq A a b = true -> a_eq A b a = true;
  pa_trans : forall a b c, wf a -> wf b -> wf c -> a_eq A a b = true -> a_eq A b c = true -> a_eq A a c = true }.

Section pw.
  Context {E : Type} (A : alg E) (two : E) (wf : E -> Prop) (den : E -> env -> Qc) (simplify : fm -> fm).
  Hypothesis PA : piece_algebra A two wf den.
  Hypothesis HS : sound_simplifier simplify.

  Notation pv := (pieces_value den).
  Notation kget := (kget A).
  Notation kpop := (kpop A).
  Notation kset := (kset A).

  (** Keys are well formed and pairwise different. *)
  Inductive keys_ok : list (E * fm) -> Prop :=
  | ko_nil : keys_ok []
  | ko_cons k c p : wf k -> keys_ok p -> Forall (fun kc => a_eq A kc.1 k = false) p -> keys_ok ((k, c) :: p).

  Lemma pv_cons' e kc p v : pv e (kc :: p) = Some v <->
    exists x y, piece_value den e kc = Some x /\ pv e p = Some y /\ v = (x + y)%Qc.
  Proof.
    unfold pieces_value. cbn [mapM]. destruct (piece_value den e kc) as [x|]; cbn [mbind option_bind].
    2:{ split; [done|]. by intros (? & ? & ? & _). }
    destruct (mapM (piece_value den e) p) as [ys|]; cbn.
    - split; [intros [= <-]; by exists x, (qsum ys)|]. by intros (? & ? & [= <-] & [= <-] & ->).
    - split; [done|]. by intros (? & ? & _ & ? & _).
  Qed.
  Lemma pv_app e p q v : pv e (p ++ q) = Some v <->
    exists x y, pv e p = Some x /\ pv e q = Some y /\ v = (x + y)%Qc.
  Proof.
    revert v. induction p as [|kc p IH]; intros v; cbn [app].
    - split; [intros H; exists 0%Qc, v; split; [done|]; split; [done|ring]|].
      intros (x & y & [= <-] & Hy & ->). rewrite Hy. f_equal. change (qsum []) with 0%Qc. ring.
    - rewrite pv_cons'. split.
      + intros (x & y & Hx & (y1 & y2 & H1 & H2 & ->)%IH & ->). exists (x + y1)%Qc, y2.
        split; [rewrite pv_cons'; eauto|]. split; [done|ring].
      + intros (x & y & (x1 & x2 & H1 & H2 & ->)%pv_cons' & Hy & ->). exists x1, (x2 + y)%Qc.
        split; [done|]. split; [apply IH; eauto|ring].
  Qed.

  Lemma is_false_value e c b : is_false c = true -> eval e c = Some (VB b) -> b = false.
  Proof. destruct c as [| [] | | | | | | | | | | | | | | | | |]; try done. by intros _ [= <-]. Qed.

  Lemma a_eq_neg k k' e : wf k -> wf k' -> wf e -> a_eq A k e = true -> a_eq A k' k = false -> a_eq A k' e = false.
  Proof.
    intros Wk Wk' We H1 H2. apply not_true_iff_false. intros H3. apply not_true_iff_false in H2. apply H2.
    apply (pa_trans _ _ _ _ PA k' e k); try done. by apply (pa_sym _ _ _ _ PA).
  Qed.

  Lemma keys_wf p kc : keys_ok p -> kc ∈ p -> wf kc.1.
  Proof.
    induction 1 as [|k c p Wk _ IH _]; intros Hin; [by apply elem_of_nil in Hin|].
    apply elem_of_cons in Hin as [->|?]; auto.
  Qed.

  (** Splitting a dictionary at a key. *)
  Lemma kget_split p e c : keys_ok p -> wf e -> kget p e = Some c -> exists p1 k p2,
    p = p1 ++ (k, c) :: p2 /\ a_eq A k e = true /\ wf k /\
    Forall (fun kc => a_eq A kc.1 e = false) p1 /\ Forall (fun kc => a_eq A kc.1 e = false) p2.
  Proof.
    intros Hok We. unfold Piecewise_Model.kget. induction Hok as [|k c' p Wk Hok IH Hk]; [done|]. cbn [List.find fst].
    destruct (a_eq A k e) eqn:Ek; cbn.
    - intros [= ->]. exists [], k, p. split; [done|]. split; [done|]. split; [done|]. split; [constructor|].
      apply Forall_forall. intros kc Hin. apply (a_eq_neg k); try done; [by apply (keys_wf p)|].
      by eapply Forall_forall in Hk.
    - intros H. destruct (IH H) as (p1 & k' & p2 & -> & ? & ? & ? & ?). exists ((k, c') :: p1), k', p2.
      split; [done|]. split; [done|]. split; [done|]. split; [by constructor|done].
  Qed.
  Lemma kget_none p e : kget p e = None <-> Forall (fun kc => a_eq A kc.1 e = false) p.
  Proof.
    unfold Piecewise_Model.kget. induction p as [|[k c] p IH]; [split; [constructor|done]|]. cbn [List.find fst].
    rewrite Forall_cons. cbn [fst]. destruct (a_eq A k e); cbn; [split; [done|by intros [? _]]|]. rewrite IH. tauto.
  Qed.
  Lemma kpop_none p e : Forall (fun kc => a_eq A kc.1 e = false) p -> kpop p e = p.
  Proof.
    unfold Piecewise_Model.kpop. induction 1 as [|kc p Hk _ IH]; [done|]. cbn [List.filter]. rewrite Hk. cbn. by f_equal.
  Qed.
  Lemma kpop_split p1 k c p2 e : a_eq A k e = true ->
    Forall (fun kc => a_eq A kc.1 e = false) p1 -> Forall (fun kc => a_eq A kc.1 e = false) p2 ->
    kpop (p1 ++ (k, c) :: p2) e = p1 ++ p2.
  Proof.
    intros Hk H1 H2. unfold Piecewise_Model.kpop. rewrite List.filter_app. cbn [List.filter fst]. rewrite Hk. cbn [negb].
    fold (kpop p1 e) (kpop p2 e). by rewrite !kpop_none.
  Qed.
  Lemma kset_split p1 k c p2 e c' : a_eq A k e = true ->
    Forall (fun kc => a_eq A kc.1 e = false) p1 -> Forall (fun kc => a_eq A kc.1 e = false) p2 ->
    kset (p1 ++ (k, c) :: p2) e c' = p1 ++ (k, c') :: p2.
  Proof.
    intros Hk H1 H2. unfold Piecewise_Model.kset.
    assert (kget (p1 ++ (k, c) :: p2) e <> None) as Hn.
    { rewrite kget_none. intros [_ Hf]%Forall_app. apply Forall_cons in Hf as [Hf _]. cbn in Hf. congruence. }
    destruct (kget _ e); [|done].
    assert (forall p, Forall (fun kc => a_eq A kc.1 e = false) p ->
      map (fun kc : E * fm => if a_eq A kc.1 e then (kc.1, c') else kc) p = p) as Hid.
    { intros p. induction 1 as [|kc p Hkc _ IH]; [done|]. cbn. by rewrite Hkc, IH. }
    rewrite map_app. cbn. rewrite Hk. by rewrite !Hid.
  Qed.
  Lemma kset_none p e c : kget p e = None -> kset p e c = p ++ [(e, c)].
  Proof. unfold Piecewise_Model.kset. by intros ->. Qed.

  Lemma keys_app p q : keys_ok (p ++ q) <-> keys_ok p /\ keys_ok q /\
    forall kp kq, kp ∈ p -> kq ∈ q -> a_eq A kq.1 kp.1 = false.
  Proof.
    induction p as [|[k c] p IH]; cbn [app].
    - split; [|by intros (_ & ? & _)]. intros H. split; [constructor|]. split; [done|]. by intros ? ? ?%elem_of_nil.
    - split.
      + intros H. inversion H as [|? ? ? Wk Hok Hf]; subst. apply IH in Hok as (Hp & Hq & Hd). apply Forall_app in Hf as [F1 F2].
        split; [by constructor|]. split; [done|]. intros kp kq [->|Hin]%elem_of_cons Hq'; [|by apply Hd].
        by eapply Forall_forall in F2.
      + intros (Hp & Hq & Hd). inversion Hp as [|? ? ? Wk Hok Hf]; subst. constructor; [done| |].
        * apply IH. split; [done|]. split; [done|]. intros kp kq ? ?. apply Hd; [by right|done].
        * apply Forall_app. split; [done|]. apply Forall_forall. intros kq ?. apply (Hd (k, c) kq); [by left|done].
  Qed.
  Lemma keys_single k c : wf k -> keys_ok [(k, c)].
  Proof. intros H. constructor; [done|constructor|constructor]. Qed.
  (** Values of the dictionary do not matter for the keys. *)
  Lemma keys_map p q : map fst p = map fst q -> keys_ok p -> keys_ok q.
  Proof.
    intros Hm Hp. revert q Hm. induction Hp as [|k c p Wk Hok IH Hf]; intros [|[k' c'] q] Hm; try done; [constructor|].
    injection Hm as -> Hm. constructor; [done|by apply IH|].
    apply Forall_forall. intros kc Hin. assert (kc.1 ∈ map fst q) as Hk.
    { apply elem_of_list_In, in_map, elem_of_list_In, Hin. }
    rewrite <- Hm in Hk. apply elem_of_list_In, in_map_iff in Hk as (kc' & <- & Hin').
    eapply Forall_forall in Hf; [exact Hf|]. by apply elem_of_list_In.
  Qed.

  Lemma kmem_spec p e : kmem A p e = false <-> kget p e = None.
  Proof. unfold kmem. by destruct (kget p e). Qed.

  Definition denotes (p : list (E * fm)) (e : env) (v : Qc) : Prop := pv e p = Some v.

  Lemma eval_or2 e c d a b : eval e c = Some (VB a) -> eval e d = Some (VB b) -> eval e (mkOr [c; d]) = Some (VB (a || b)).
  Proof. intros H1 H2. cbn. rewrite H1. cbn. rewrite H2. cbn. by rewrite orb_false_r. Qed.
  Lemma eval_and2 e c d a b : eval e c = Some (VB a) -> eval e d = Some (VB b) -> eval e (mkAnd [c; d]) = Some (VB (a && b)).
  Proof. intros H1 H2. cbn. rewrite H1. cbn. rewrite H2. cbn. by rewrite andb_true_r. Qed.
  Lemma eval_mkNot e c a : eval e c = Some (VB a) -> eval e (mkNot c) = Some (VB (negb a)).
  Proof.
    intros H. destruct c; try (cbn [mkNot eval] in *; rewrite H; done). cbn [mkNot]. cbn [eval] in H.
    destruct (eval e c) as [[b|]|]; try done. cbn in H. injection H as <-. by rewrite negb_involutive.
  Qed.
  Lemma piece_val e k c b : eval e c = Some (VB b) -> piece_value den e (k, c) = Some (if b then den k e else 0)%Qc.
  Proof. intros H. unfold piece_value. cbn [fst snd]. rewrite H. by destruct b. Qed.
  Lemma piece_inv e k c x : piece_value den e (k, c) = Some x ->
    exists b, eval e c = Some (VB b) /\ x = (if b then den k e else 0)%Qc.
  Proof.
    unfold piece_value. cbn [fst snd]. destruct (eval e c) as [[[]|]|]; try done; intros [= <-]; by eexists.
  Qed.

  (** Adding a piece in strict mode: the code does the same, and the value is the
      sum. *)
  Lemma addpiece_value p e c p' : keys_ok p -> wf e -> addpiece A two simplify true p e c = Ok p' ->
    addpiece A two simplify false p e c = Ok p' /\ keys_ok p' /\
    forall env v w, pv env p = Some v -> piece_value den env (e, c) = Some w -> pv env p' = Some (v + w)%Qc.
  Proof.
    intros Hok We. unfold addpiece. destruct (is_false c) eqn:Ec.
    { intros [= <-]. split; [done|]. split; [done|]. intros env v w Hv Hw. apply piece_inv in Hw as (b & Hb & ->).
      rewrite (is_false_value _ _ _ Ec Hb). rewrite Hv. f_equal. ring. }
    destruct (kget p e) as [old|] eqn:Eg.
    2:{ intros [= <-]. split; [done|]. rewrite kset_none by done. split.
        - apply keys_app. split; [done|]. split; [by apply keys_single|]. intros kp kq Hp Hq.
          apply elem_of_list_singleton in Hq as ->. cbn [fst]. apply kget_none in Eg.
          destruct (a_eq A e kp.1) eqn:Eq; [|done]. exfalso. eapply Forall_forall in Eg; [|exact Hp].
          rewrite (pa_sym _ _ _ _ PA _ _ We (keys_wf p kp Hok Hp) Eq) in Eg. done.
        - intros env v w Hv Hw. apply piece_inv in Hw as (b & Hb & ->). apply pv_app. exists v, (if b then den e env else 0)%Qc.
          split; [done|]. split; [|done]. apply pv_cons'. exists (if b then den e env else 0)%Qc, 0%Qc.
          split; [apply piece_val; by apply HS|]. split; [done|ring]. }
    set (both := mkAnd [old; c]). set (c1 := simplify (mkAnd [mkOr [old; c]; mkNot both])). set (c2 := simplify both).
    set (e2 := alg_times A two e).
    destruct (kmem A p e2) eqn:E2; cbn [andb]; [done|]. apply kmem_spec in E2.
    assert (wf e2) as We2 by (apply (pa_times _ _ _ _ PA); [apply (pa_two _ _ _ _ PA)|done]).
    assert (forall env, den e2 env = (qz 2 * den e env)%Qc) as De2.
    { intros env. unfold e2. destruct (pa_times _ _ _ _ PA two e (proj1 (pa_two _ _ _ _ PA)) We) as [_ ->].
      by destruct (pa_two _ _ _ _ PA) as [_ ->]. }
    destruct (kget_split p e old Hok We Eg) as (p1 & k & p2 & -> & Hk & Wk & F1 & F2).
    rewrite (kset_split p1 k old p2 e c1 Hk F1 F2), (kpop_split p1 k old p2 e Hk F1 F2).
    apply kget_none in E2. apply Forall_app in E2 as [G1 [Gk G2]%Forall_cons]. cbn [fst] in Gk.
    set (q1 := if is_false c1 then p1 ++ p2 else p1 ++ (k, c1) :: p2).
    assert (kget q1 e2 = None) as Hq1.
    { apply kget_none. subst q1. destruct (is_false c1); [by apply Forall_app|]. apply Forall_app. split; [done|]. by constructor. }
    assert (keys_ok q1) as Hokq.
    { subst q1. destruct (is_false c1).
      - apply keys_app in Hok as (Hp & Hq & Hd). inversion Hq; subst. apply keys_app. split; [done|]. split; [done|].
        intros kp kq ? ?. apply Hd; [done|by right].
      - eapply keys_map; [|exact Hok]. by rewrite !map_app. }
    assert (kmem A q1 e2 = false) as Hm by by apply kmem_spec. rewrite Hm.
    rewrite (kset_none q1 e2 c2) by done. rewrite (kpop_none q1 e2) by by apply kget_none.
    assert (forall env v w, pv env (p1 ++ (k, old) :: p2) = Some v -> piece_value den env (e, c) = Some w ->
      exists b1 b2 r, eval env old = Some (VB b1) /\ eval env c = Some (VB b2) /\
        v = (r + if b1 then den e env else 0)%Qc /\ w = (if b2 then den e env else 0)%Qc /\
        pv env q1 = Some (r + if xorb b1 b2 then den e env else 0)%Qc) as HV.
    { intros env v w Hv Hw. apply piece_inv in Hw as (b2 & Hb2 & ->).
      apply pv_app in Hv as (x & y & Hx & Hy & ->). apply pv_cons' in Hy as (z & y2 & Hz & Hy2 & ->).
      apply piece_inv in Hz as (b1 & Hb1 & ->). exists b1, b2, (x + y2)%Qc. split; [done|]. split; [done|].
      rewrite (pa_eq _ _ _ _ PA k e env Wk We Hk).
      split; [ring|]. split; [done|].
      assert (eval env c1 = Some (VB (xorb b1 b2))) as Hc1.
      { apply HS. rewrite (eval_and2 env _ _ (b1 || b2) (negb (b1 && b2))); [by destruct b1, b2|by apply eval_or2|].
        apply eval_mkNot. by apply eval_and2. }
      subst q1. destruct (is_false c1) eqn:Ef.
      - rewrite (is_false_value _ _ _ Ef Hc1). apply pv_app. exists x, y2. split; [done|]. split; [done|ring].
      - apply pv_app. exists x, ((if xorb b1 b2 then den e env else 0) + y2)%Qc. split; [done|]. split; [|ring].
        apply pv_cons'. exists (if xorb b1 b2 then den e env else 0)%Qc, y2. split; [|done].
        rewrite (piece_val env k c1 (xorb b1 b2)) by done. by rewrite (pa_eq _ _ _ _ PA k e env Wk We Hk). }
    destruct (is_false c2) eqn:Ec2.
    - intros [= <-]. split; [done|]. split; [done|]. intros env v w Hv Hw.
      destruct (HV env v w Hv Hw) as (b1 & b2 & r & Hb1 & Hb2 & -> & -> & ->).
      assert (eval env c2 = Some (VB (b1 && b2))) as Hc2 by by apply HS, eval_and2.
      apply (is_false_value _ _ _ Ec2) in Hc2. f_equal. destruct b1, b2; cbn; try done; ring.
    - intros [= <-]. split; [done|]. split.
      + apply keys_app. split; [done|]. split; [by apply keys_single|]. intros kp kq Hp Hq.
        apply elem_of_list_singleton in Hq as ->. cbn [fst]. apply kget_none in Hq1.
        destruct (a_eq A e2 kp.1) eqn:Eq; [|done]. exfalso. eapply Forall_forall in Hq1; [|exact Hp].
        rewrite (pa_sym _ _ _ _ PA _ _ We2 (keys_wf q1 kp Hokq Hp) Eq) in Hq1. done.
      + intros env v w Hv Hw. destruct (HV env v w Hv Hw) as (b1 & b2 & r & Hb1 & Hb2 & -> & -> & Hr).
        assert (eval env c2 = Some (VB (b1 && b2))) as Hc2 by by apply HS, eval_and2.
        apply pv_app. eexists _, _. split; [exact Hr|]. split.
        * apply pv_cons'. eexists _, 0%Qc. split; [by apply piece_val|]. split; [done|reflexivity].
        * rewrite De2. change (qz 2) with (1 + 1)%Qc. destruct b1, b2; cbn; ring.
  Qed.

  Lemma addall_err l s x : fold_left (fun r (ec : E * fm) => let! p := r in addpiece A two simplify s p ec.1 ec.2) l (Err x) = Err x.
  Proof. induction l; [done|]. done. Qed.

  Lemma addall_value l : forall p p', keys_ok p -> Forall (fun kc : E * fm => wf kc.1) l ->
    addall A two simplify true p l = Ok p' ->
    addall A two simplify false p l = Ok p' /\ keys_ok p' /\
    forall env v w, pv env p = Some v -> pv env l = Some w -> pv env p' = Some (v + w)%Qc.
  Proof.
    unfold addall. induction l as [|[e c] l IH]; intros p p' Hok Hw.
    - cbn. intros [= <-]. split; [done|]. split; [done|]. intros env v w Hv [= <-]. rewrite Hv. f_equal. change (qsum []) with 0%Qc. ring.
    - cbn [fold_left rbind fst snd]. apply Forall_cons in Hw as [We Hw]. cbn [fst] in We.
      destruct (addpiece A two simplify true p e c) as [p1|x] eqn:E1; [|by rewrite addall_err].
      destruct (addpiece_value p e c p1 Hok We E1) as (E1' & Hok1 & V1). rewrite E1'. intros H.
      destruct (IH p1 p' Hok1 Hw H) as (H' & Hok' & V'). split; [done|]. split; [done|].
      intros env v w Hv (x & y & Hx & Hy & ->)%pv_cons'.
      rewrite (V' env (v + x)%Qc y); [f_equal; ring| |done]. by apply V1.
  Qed.

  Lemma pv_filter (ok : E * fm -> bool) env p v :
    (forall kc x, kc ∈ p -> ok kc = false -> piece_value den env kc = Some x -> x = 0%Qc) ->
    pv env p = Some v -> pv env (List.filter ok p) = Some v.
  Proof.
    revert v. induction p as [|kc p IH]; intros v H; [done|]. rewrite pv_cons'. intros (x & y & Hx & Hy & ->).
    cbn [List.filter]. destruct (ok kc) eqn:Ek.
    - apply pv_cons'. exists x, y. split; [done|]. split; [|done]. apply IH; [|done]. intros kc' ? ?. apply H. by right.
    - rewrite (H kc x) by (done || by left). rewrite IH with (v := y); [f_equal; ring| |done]. intros kc' ? ?. apply H. by right.
  Qed.

  Lemma keys_Forall p : keys_ok p -> Forall (fun kc => wf kc.1) p.
  Proof. intros H. apply Forall_forall. intros kc Hin. by apply (keys_wf p). Qed.
  Lemma Forall_lfilter {B} (P : B -> Prop) ok l : Forall P l -> Forall P (List.filter ok l).
  Proof. induction 1; [constructor|]. cbn. destruct (ok _); [by constructor|done]. Qed.

  Lemma pw_add_value p q r : keys_ok p -> keys_ok q -> pw_add A two simplify true p q = Ok r ->
    pw_add A two simplify false p q = Ok r /\ keys_ok r /\
    forall env v w, pv env p = Some v -> pv env q = Some w -> pv env r = Some (v + w)%Qc.
  Proof.
    intros Hp Hq. unfold pw_add. destruct p as [|kp p].
    { intros [= <-]. split; [done|]. split; [done|]. intros env v w [= <-] ->. f_equal. change (qsum []) with 0%Qc. ring. }
    destruct q as [|kq q].
    { intros [= <-]. split; [done|]. split; [done|]. intros env v w -> [= <-]. f_equal. change (qsum []) with 0%Qc. ring. }
    set (l := (kp :: p) ++ kq :: q). intros H.
    match type of H with addall _ _ _ _ _ ?fl = _ => assert (Forall (fun kc : E * fm => wf kc.1) fl) as HF end.
    { apply Forall_lfilter, Forall_app. split; by apply keys_Forall. }
    destruct (addall_value _ [] r ko_nil HF H) as (H' & Hok & V).
    split; [done|]. split; [done|]. intros env v w Hv Hw.
    rewrite (V env 0%Qc (v + w)%Qc); [f_equal; ring|done|].
    apply pv_filter; [|apply pv_app; by exists v, w].
    intros [k c] x Hin Hk. cbn [fst snd] in Hk. intros (b & Hb & ->)%piece_inv.
    apply andb_false_iff in Hk as [Hk|Hk]; apply negb_false_iff in Hk.
    - by rewrite (is_false_value _ _ _ Hk Hb).
    - destruct b; [|done]. assert (wf k) as Wk.
      { assert (Forall (fun kc : E * fm => wf kc.1) l) as HF2 by (apply Forall_app; split; by apply keys_Forall).
        by eapply Forall_forall in HF2; [|exact Hin]. }
      destruct (pa_real _ _ _ _ PA 0%Qc) as [W0 D0].
      by rewrite (pa_eq _ _ _ _ PA k (alg_zero A) env Wk W0 Hk), D0.
  Qed.

  Lemma pv_total_app env p q : pv env p <> None -> pv env q <> None -> pv env (p ++ q) <> None.
  Proof.
    destruct (pv env p) as [v|] eqn:E1, (pv env q) as [w|] eqn:E2; try done. intros _ _.
    rewrite (proj2 (pv_app env p q (v + w)%Qc)); [done|]. by exists v, w.
  Qed.

  Lemma mul_piece_wf k1 k2 : wf k1.1 -> wf k2.1 -> Forall (fun kc => wf kc.1) (mul_piece A simplify k1 k2).
  Proof.
    intros W1 W2. unfold mul_piece. destruct (_ && _); [|constructor]. destruct (negb _); [|constructor].
    constructor; [|constructor]. cbn [fst]. destruct (a_eq A k1.1 (alg_one A)); [done|].
    destruct (a_eq A k2.1 (alg_one A)); [done|]. by apply (pa_times _ _ _ _ PA).
  Qed.
  Lemma mul_piece_value env k1 k2 x y : wf k1.1 -> wf k2.1 ->
    piece_value den env k1 = Some x -> piece_value den env k2 = Some y ->
    pv env (mul_piece A simplify k1 k2) = Some (x * y)%Qc.
  Proof.
    destruct k1 as [e1 c1], k2 as [e2 c2]. cbn [fst snd]. intros W1 W2 (b1 & H1 & ->)%piece_inv (b2 & H2 & ->)%piece_inv.
    unfold mul_piece. cbn [fst snd].
    assert (eval env (simplify (mkAnd [c1; c2])) = Some (VB (b1 && b2))) as Hs by by apply HS, eval_and2.
    destruct (pa_real _ _ _ _ PA 0%Qc) as [W0 D0]. destruct (pa_real _ _ _ _ PA 1%Qc) as [W1' D1].
    assert (forall k, wf k -> a_eq A k (alg_zero A) = true -> den k env = 0%Qc) as HZ.
    { intros k Wk Hk. by rewrite (pa_eq _ _ _ _ PA k (alg_zero A) env Wk W0 Hk), D0. }
    assert (forall k, wf k -> a_eq A k (alg_one A) = true -> den k env = 1%Qc) as HO.
    { intros k Wk Hk. by rewrite (pa_eq _ _ _ _ PA k (alg_one A) env Wk W1' Hk), D1. }
    assert (forall z : Qc, z = 0%Qc -> pv env [] = Some z) as Hnil by (by intros ? ->).
    destruct (a_eq A e1 (alg_zero A)) eqn:Z1; cbn [negb andb].
    { apply Hnil. rewrite (HZ e1) by done. destruct b1, b2; ring. }
    destruct (a_eq A e2 (alg_zero A)) eqn:Z2; cbn [negb andb].
    { apply Hnil. rewrite (HZ e2) by done. destruct b1, b2; ring. }
    destruct (is_false _) eqn:Ef; cbn [negb].
    { apply Hnil. apply (is_false_value _ _ _ Ef) in Hs. destruct b1, b2; try done; ring. }
    set (k := if a_eq A e1 (alg_one A) then e2 else _).
    assert (wf k /\ den k env = (den e1 env * den e2 env)%Qc) as [Wk Dk].
    { subst k. destruct (a_eq A e1 (alg_one A)) eqn:O1; [split; [done|rewrite (HO e1) by done; ring]|].
      destruct (a_eq A e2 (alg_one A)) eqn:O2; [split; [done|rewrite (HO e2) by done; ring]|].
      destruct (pa_times _ _ _ _ PA e1 e2 W1 W2) as [? ?]. auto. }
    destruct (a_eq A k (alg_zero A)) eqn:Zk; cbn [negb].
    { apply Hnil. apply HZ in Zk; [|done]. rewrite Dk in Zk. destruct b1, b2; try ring. exact Zk. }
    apply pv_cons'. eexists _, 0%Qc. split; [by apply piece_val|]. split; [done|].
    rewrite Dk. destruct b1, b2; cbn; ring.
  Qed.

  Lemma mul_row_value env k1 q x w : wf k1.1 -> Forall (fun kc => wf kc.1) q ->
    piece_value den env k1 = Some x -> pv env q = Some w ->
    pv env (flat_map (mul_piece A simplify k1) q) = Some (x * w)%Qc.
  Proof.
    intros W1 Wq Hx. revert w. induction Wq as [|k2 q W2 _ IH]; intros w.
    - intros [= <-]. cbn. f_equal. change (qsum []) with 0%Qc. ring.
    - intros (y & z & Hy & Hz & ->)%pv_cons'. cbn [flat_map]. apply pv_app. exists (x * y)%Qc, (x * z)%Qc.
      split; [by apply mul_piece_value|]. split; [by apply IH|ring].
  Qed.

  Lemma pw_mul_value p q r : keys_ok p -> keys_ok q -> pw_mul A two simplify true p q = Ok r ->
    pw_mul A two simplify false p q = Ok r /\ keys_ok r /\
    forall env v w, pv env p = Some v -> pv env q = Some w -> pv env r = Some (v * w)%Qc.
  Proof.
    intros Hp%keys_Forall Hq%keys_Forall. unfold pw_mul. intros H.
    match type of H with addall _ _ _ _ _ ?fl = _ => assert (Forall (fun kc : E * fm => wf kc.1) fl) as HF end.
    { clear H. induction Hp as [|k1 p W1 _ IH]; [constructor|]. cbn [flat_map]. apply Forall_app. split; [|done].
      clear IH. induction Hq as [|k2 q W2 _ IH]; [constructor|]. cbn [flat_map]. apply Forall_app. split; [|done].
      by apply mul_piece_wf. }
    destruct (addall_value _ [] r ko_nil HF H) as (H' & Hok & V). split; [done|]. split; [done|]. intros env v w Hv Hw.
    rewrite (V env 0%Qc (v * w)%Qc); [f_equal; ring|done|]. clear H H' HF V Hok.
    revert v Hv. induction Hp as [|k1 p W1 _ IH]; intros v.
    - intros [= <-]. cbn. f_equal. change (qsum []) with 0%Qc. ring.
    - intros (x & y & Hx & Hy & ->)%pv_cons'. cbn [flat_map]. apply pv_app. exists (x * w)%Qc, (y * w)%Qc.
      split; [by apply mul_row_value|]. split; [by apply IH|ring].
  Qed.

  Lemma pw_neg_value p r : keys_ok p -> pw_neg A true p = Ok r ->
    pw_neg A false p = Ok r /\ keys_ok r /\ forall env v, pv env p = Some v -> pv env r = Some (- v)%Qc.
  Proof.
    intros Hp%keys_Forall. unfold pw_neg.
    assert (forall s x, fold_left (fun r (kc : E * fm) => let! d := r in
      let e := alg_negate A kc.1 in if s && kmem A d e then Err RuntimeErr else Ok (kset d e kc.2)) p (Err x) = Err x) as Herr.
    { intros s x. clear. by induction p. }
    assert (forall d, keys_ok d -> fold_left (fun r (kc : E * fm) => let! d := r in
        let e := alg_negate A kc.1 in if true && kmem A d e then Err RuntimeErr else Ok (kset d e kc.2)) p (Ok d) = Ok r ->
      fold_left (fun r (kc : E * fm) => let! d := r in
        let e := alg_negate A kc.1 in if false && kmem A d e then Err RuntimeErr else Ok (kset d e kc.2)) p (Ok d) = Ok r /\
      keys_ok r /\ forall env v w, pv env d = Some w -> pv env p = Some v -> pv env r = Some (w - v)%Qc) as HG.
    { clear Herr. induction Hp as [|[k c] p Wk _ IH]; intros d Hd.
      - cbn. intros [= <-]. split; [done|]. split; [done|]. intros env v w Hw [= <-]. rewrite Hw. f_equal.
        change (qsum []) with 0%Qc. ring.
      - cbn [fold_left rbind fst snd andb]. cbn [fst] in Wk.
        assert (forall s x, fold_left (fun r (kc : E * fm) => let! d := r in
          if s && kmem A d (alg_negate A kc.1) then Err RuntimeErr else Ok (kset d (alg_negate A kc.1) kc.2)) p (Err x) = Err x) as Herr.
        { intros s x. clear. by induction p. }
        destruct (kmem A d (alg_negate A k)) eqn:Em; [rewrite (Herr true); done|].
        apply kmem_spec in Em. rewrite (kset_none d _ c) by done. intros H.
        destruct (pa_real _ _ _ _ PA (-(1))%Qc) as [Wm Dm].
        destruct (pa_times _ _ _ _ PA k _ Wk Wm) as [Wn Dn]. change (wf (alg_negate A k)) in Wn.
        assert (keys_ok (d ++ [(alg_negate A k, c)])) as Hd'.
        { apply keys_app. split; [done|]. split; [by apply keys_single|]. intros kp kq Hin Hq.
          apply elem_of_list_singleton in Hq as ->. cbn [fst]. apply kget_none in Em.
          destruct (a_eq A (alg_negate A k) kp.1) eqn:Eq; [|done]. exfalso. eapply Forall_forall in Em; [|exact Hin].
          rewrite (pa_sym _ _ _ _ PA _ _ Wn (keys_wf d kp Hd Hin) Eq) in Em. done. }
        destruct (IH _ Hd' H) as (H' & Hok & V). split; [done|]. split; [done|]. intros env v w Hw (x & y & Hx & Hy & ->)%pv_cons'.
        apply piece_inv in Hx as (b & Hb & ->).
        rewrite (V env y (w - (if b then den k env else 0))%Qc); [f_equal; ring| |done].
        apply pv_app. exists w, (if b then - den k env else 0)%Qc. split; [done|]. split; [|destruct b; ring].
        apply pv_cons'. eexists _, 0%Qc. split; [by apply piece_val|]. split; [done|].
        unfold alg_negate. rewrite Dn, Dm. destruct b; ring. }
    intros H. destruct (HG [] ko_nil H) as (H' & Hok & V). split; [done|]. split; [done|]. intros env v Hv.
    rewrite (V env v 0%Qc); [f_equal; ring|done|done].
  Qed.

  Lemma condition_keys p c : keys_ok p -> keys_ok (pw_condition p c).
  Proof. apply keys_map. unfold pw_condition. rewrite map_map. by apply map_ext. Qed.
  Lemma condition_value env p c v b : eval env c = Some (VB b) -> pv env p = Some v ->
    pv env (pw_condition p c) = Some (if b then v else 0)%Qc.
  Proof.
    intros Hc. revert v. induction p as [|[k d] p IH]; intros v.
    - intros [= <-]. cbn. by destruct b.
    - intros (x & y & (a & Ha & ->)%piece_inv & Hy & ->)%pv_cons'. unfold pw_condition. cbn [map fst snd]. apply pv_cons'.
      eexists _, _. split; [apply piece_val; by apply eval_and2|]. split; [by apply IH|]. destruct a, b; cbn; ring.
  Qed.

  Lemma pw_ite_value c p q r : keys_ok p -> keys_ok q -> pw_ite A two simplify true c p q = Ok r ->
    pw_ite A two simplify false c p q = Ok r /\ keys_ok r /\
    forall env b v w, eval env c = Some (VB b) -> pv env p = Some v -> pv env q = Some w ->
      pv env r = Some (if b then v else w).
  Proof.
    intros Hp Hq H. unfold pw_ite in *.
    destruct (pw_add_value _ _ r (condition_keys p c Hp) (condition_keys q (mkNot c) Hq) H) as (H' & Hok & V).
    split; [done|]. split; [done|]. intros env b v w Hc Hv Hw.
    rewrite (V env (if b then v else 0)%Qc (if negb b then w else 0)%Qc).
    - destruct b; cbn; f_equal; ring.
    - by apply condition_value.
    - apply condition_value; [by apply eval_mkNot|done].
  Qed.

  (** Reductions of several results. *)
  Lemma reduce_value (op : list (E * fm) -> list (E * fm) -> Res (list (E * fm)))
      (op' : list (E * fm) -> list (E * fm) -> Res (list (E * fm))) (f : Qc -> Qc -> Qc) ps r :
    (forall p q r, keys_ok p -> keys_ok q -> op p q = Ok r -> op' p q = Ok r /\ keys_ok r /\
      forall env v w, pv env p = Some v -> pv env q = Some w -> pv env r = Some (f v w)) ->
    Forall keys_ok ps -> reduceM op ps = Ok r -> reduceM op' ps = Ok r /\ keys_ok r /\
    forall env vs, Forall2 (fun p v => pv env p = Some v) ps vs ->
      exists v vs', vs = v :: vs' /\ pv env r = Some (fold_left f vs' v).
  Proof.
    intros Hop HF. destruct ps as [|p ps]; [done|]. cbn [reduceM]. apply Forall_cons in HF as [Hp HF].
    assert (forall x, fold_left (fun r y => let! r := r in op r y) ps (Err x) = Err x) as Herr by (intros; clear; by induction ps).
    intros H. assert (fold_left (fun r y => let! r := r in op' r y) ps (Ok p) = Ok r /\ keys_ok r /\
      forall env v vs, pv env p = Some v -> Forall2 (fun p v => pv env p = Some v) ps vs -> pv env r = Some (fold_left f vs v)) as (H' & Hr & V).
    { clear Herr. revert p Hp H. induction HF as [|q ps Hq _ IH]; intros p Hp; cbn [fold_left rbind].
      - intros [= <-]. split; [done|]. split; [done|]. intros env v vs Hv HF2. by inversion HF2; subst.
      - assert (forall x, fold_left (fun r y => let! r := r in op r y) ps (Err x) = Err x) as Herr by (intros; clear; by induction ps).
        destruct (op p q) as [p1|x] eqn:E1; [|by rewrite Herr].
        destruct (Hop p q p1 Hp Hq E1) as (E1' & Hp1 & V1). rewrite E1'. intros H.
        destruct (IH p1 Hp1 H) as (H' & Hr & V). split; [done|]. split; [done|].
        intros env v vs Hv HF2. inversion HF2 as [|? w ? ws Hw HF3]; subst. cbn [fold_left]. apply V; [|done]. by apply V1. }
    split; [done|]. split; [done|]. intros env vs HF2. inversion HF2 as [|? v ? vs' Hv HF3]; subst. exists v, vs'.
    split; [done|]. by apply V.
  Qed.

  Lemma rmapM_walk (rec rec' : fm -> Res (list (E * fm))) l ps :
    (forall f p, rec f = Ok p -> rec' f = Ok p /\ keys_ok p /\
      forall env v, eval env f = Some (VN v) -> pv env p = Some v) ->
    rmapM rec l = Ok ps -> rmapM rec' l = Ok ps /\ Forall keys_ok ps /\
    forall env vs, mapM (fun g => vnum (eval env g)) l = Some vs -> Forall2 (fun p v => pv env p = Some v) ps vs.
  Proof.
    intros Hrec. revert ps. induction l as [|f l IH]; intros ps.
    - intros [= <-]. split; [done|]. split; [constructor|]. intros env vs [= <-]. constructor.
    - rewrite !rmapM_cons. destruct (rec f) as [p|] eqn:Ef; cbn [rbind]; [|done].
      destruct (rmapM rec l) as [ps'|] eqn:El; cbn [rbind]; [|done]. intros [= <-].
      destruct (Hrec f p Ef) as (-> & Hp & V). destruct (IH ps' eq_refl) as (-> & HF & V'). cbn [rbind].
      split; [done|]. split; [by constructor|]. intros env vs. cbn [mapM].
      destruct (eval env f) as [[|v]|] eqn:Ev; cbn [vnum mbind option_bind]; try done.
      destruct (mapM _ l) as [ws|] eqn:Em; cbn; [|done]. intros [= <-]. constructor; [by apply V|by apply V'].
  Qed.

  Lemma fold_plus vs : forall v : Qc, fold_left Qcplus vs v = (v + qsum vs)%Qc.
  Proof. induction vs as [|w vs IH]; intros v; cbn [fold_left]; [change (qsum []) with 0%Qc; ring|]. rewrite IH, qsum_cons. ring. Qed.
  Lemma fold_mult vs : forall v : Qc, fold_left Qcmult vs v = (v * qprod vs)%Qc.
  Proof. induction vs as [|w vs IH]; intros v; cbn [fold_left]; [cbn; ring|]. rewrite IH. cbn [qprod fold_right]. fold (qprod vs). ring. Qed.

  Lemma walk_value n : forall f p, walk (pw_walker A two simplify true) n f = Ok p ->
    walk (pw_walker A two simplify false) n f = Ok p /\ keys_ok p /\
    forall env v, eval env f = Some (VN v) -> pv env p = Some v.
  Proof.
    induction n as [|n IH]; intros f p; [done|]. cbn [walk].
    destruct f as [x [] | b | q | z | l | l | g | g h | g h | c g h | l | g h | l | g h | g h | g h | g h | g | g]; cbn [dispatch]; try done.
    - (* symbol *) intros [= <-]. split; [done|]. destruct (pa_symbol _ _ _ _ PA x) as [W D].
      split; [by apply keys_single|]. intros env v [= <-]. apply pv_cons'. exists (er env x), 0%Qc.
      split; [unfold piece_value; cbn; by rewrite D|]. split; [done|ring].
    - (* constant *) intros [= <-]. split; [done|]. destruct (pa_real _ _ _ _ PA q) as [W D].
      split; [by apply keys_single|]. intros env v [= <-]. apply pv_cons'. exists q, 0%Qc.
      split; [unfold piece_value; cbn; by rewrite D|]. split; [done|ring].
    - (* implication *) intros H. destruct (IH _ _ H) as (H' & Hp & V). split; [done|]. split; [done|].
      intros env v. cbn [eval]. destruct (vbool (eval env g)), (vbool (eval env h)); done.
    - (* conditional *) cbn [w_ite pw_walker]. destruct (walk _ n g) as [pg|] eqn:Eg; cbn [rbind]; [|done].
      destruct (walk _ n h) as [ph|] eqn:Eh; cbn [rbind]; [|done]. intros H.
      destruct (IH g pg Eg) as (-> & Hg & Vg). destruct (IH h ph Eh) as (-> & Hh & Vh). cbn [rbind].
      destruct (pw_ite_value c pg ph p Hg Hh H) as (H' & Hp & V). split; [done|]. split; [done|]. intros env v. cbn [eval].
      destruct (eval env c) as [[b|]|] eqn:Ec; cbn [vbool mbind option_bind]; try done.
      destruct (eval env g) as [vg|] eqn:Evg; cbn [mbind option_bind]; [|done].
      destruct (eval env h) as [vh|] eqn:Evh; cbn [mbind option_bind]; [|done].
      destruct vg as [|vg], vh as [|vh]; cbn; try done. intros [= <-]. by apply V; auto.
    - (* sum *) cbn [w_plus pw_walker]. destruct (rmapM _ l) as [ps|] eqn:El; cbn [rbind]; [|done]. intros H.
      destruct (rmapM_walk _ _ l ps IH El) as (-> & HF & Vl). cbn [rbind].
      destruct (reduce_value _ (pw_add A two simplify false) Qcplus ps p pw_add_value HF H) as (H' & Hp & V).
      split; [done|]. split; [done|]. intros env v. cbn [eval]. destruct (mapM _ l) as [vs|] eqn:Em; cbn; [|done]. intros [= <-].
      destruct (V env vs (Vl env vs Em)) as (w & ws & -> & ->). by rewrite fold_plus, qsum_cons.
    - (* difference *) cbn [w_minus pw_walker]. destruct (walk _ n g) as [pg|] eqn:Eg; cbn [rbind]; [|done].
      destruct (walk _ n h) as [ph|] eqn:Eh; cbn [rbind]; [|done].
      destruct (pw_neg A true ph) as [ph'|] eqn:En; cbn [rbind]; [|done]. intros H.
      destruct (IH g pg Eg) as (-> & Hg & Vg). destruct (IH h ph Eh) as (-> & Hh & Vh). cbn [rbind].
      destruct (pw_neg_value ph ph' Hh En) as (-> & Hh' & Vn). cbn [rbind].
      destruct (pw_add_value pg ph' p Hg Hh' H) as (H' & Hp & V). split; [done|]. split; [done|]. intros env v. cbn [eval].
      destruct (eval env g) as [[|vg]|] eqn:Evg; cbn [vnum mbind option_bind]; try done.
      destruct (eval env h) as [[|vh]|] eqn:Evh; cbn [vnum mbind option_bind]; try done. intros [= <-].
      apply (V env vg (- vh)%Qc); [by apply Vg|]. by apply Vn, Vh.
    - (* product *) cbn [w_times pw_walker]. destruct (rmapM _ l) as [ps|] eqn:El; cbn [rbind]; [|done]. intros H.
      destruct (rmapM_walk _ _ l ps IH El) as (-> & HF & Vl). cbn [rbind].
      destruct (reduce_value _ (pw_mul A two simplify false) Qcmult ps p pw_mul_value HF H) as (H' & Hp & V).
      split; [done|]. split; [done|]. intros env v. cbn [eval]. destruct (mapM _ l) as [vs|] eqn:Em; cbn; [|done]. intros [= <-].
      destruct (V env vs (Vl env vs Em)) as (w & ws & -> & ->). by rewrite fold_mult.
    - (* power *) cbn [w_pow pw_walker]. unfold pw_pow. destruct (walk _ n g) as [pg|] eqn:Eg; cbn [rbind]; [|done].
      destruct (IH g pg Eg) as (-> & Hg & Vg). cbn [rbind].
      destruct (const_val h) as [x|] eqn:Ex; [|done]. unfold int_of_qc. destruct (Pos.eqb (Qden (this x)) 1) eqn:Ed; [|done].
      assert (forall env, vnum (eval env h) = Some x) as Hx by (destruct h; try done; by injection Ex as <-).
      destruct (Z.eqb_spec (Qnum (this x)) 0) as [Hz|Hz].
      + intros [= <-]. split; [done|]. destruct (pa_real _ _ _ _ PA 1%Qc) as [W D]. split; [by apply keys_single|].
        intros env v. cbn [eval]. rewrite Hx. destruct (vnum (eval env g)); cbn [mbind option_bind]; [|done].
        assert (nat_of_qc x = Some 0) as -> by (unfold nat_of_qc; by rewrite Ed, Hz).
        cbn [mbind option_bind qpow]. intros [= <-]. apply pv_cons'. exists 1%Qc, 0%Qc.
        split; [unfold piece_value; cbn; by rewrite D|]. split; [done|ring].
      + intros H. assert (Forall keys_ok (repeat pg (Z.to_nat (Qnum (this x))))) as HF.
        { apply Forall_forall. intros q Hq. apply elem_of_list_In, repeat_spec in Hq as ->. done. }
        destruct (reduce_value _ (pw_mul A two simplify false) Qcmult _ p pw_mul_value HF H) as (H' & Hp & V).
        split; [done|]. split; [done|]. intros env v. cbn [eval]. rewrite Hx.
        destruct (eval env g) as [[|vg]|] eqn:Evg; cbn [vnum mbind option_bind]; try done.
        unfold nat_of_qc. rewrite Ed. cbn [andb]. destruct (0 <=? Qnum (this x))%Z eqn:Ez; cbn [mbind option_bind]; [|done].
        intros [= <-].
        destruct (V env (repeat vg (Z.to_nat (Qnum (this x))))) as (w & ws & Hw & ->).
        { generalize (Z.to_nat (Qnum (this x))). induction n0 as [|m IHm]; cbn; constructor; [by apply Vg|done]. }
        rewrite fold_mult. f_equal. clear V H H' HF. revert Hw. generalize (Z.to_nat (Qnum (this x))). intros m Hw.
        change (qprod (w :: ws) = qpow vg m). rewrite <- Hw. clear. induction m as [|m IH]; [done|].
        cbn [repeat qprod fold_right qpow]. by fold (qprod (repeat vg m)); rewrite IH.
  Qed.
End pw.

(** * The keys of the XSDD engines *)

Definition key_wf (k : pkey) : Prop := match k with KNum _ => True | KPoly p => dwf p end.
Definition key_den (k : pkey) (e : env) : Qc := match k with KNum q => q | KPoly p => poly_val e p end.

Lemma key_mul_wf p q : dwf (a_mul poly_alg p q).
Proof.
  cbn. unfold poly_mul. destruct (times_total p q) as [r Hr]. rewrite Hr.
  apply times_sound in Hr as [[? _] _]. done.
Qed.
Lemma key_mul_den p q e : poly_val e (a_mul poly_alg p q) = (poly_val e p * poly_val e q)%Qc.
Proof. cbn [a_mul poly_alg]. destruct (poly_mul_value p q) as (r & Hr & V). rewrite Hr. apply V. Qed.
Lemma const_wf c : dwf (poly_const c).
Proof. unfold dwf. cbn. apply NoDup_singleton. Qed.
Lemma const_den c e : poly_val e (poly_const c) = c.
Proof. unfold poly_const. rewrite pv_cons, pv_nil. unfold mono_val, CONST_KEY. cbn. ring. Qed.

Lemma key_algebra : piece_algebra key_alg key_two key_wf key_den.
Proof.
  assert (forall a b e, key_wf a -> key_wf b -> key_eqb a b = true -> key_den a e = key_den b e) as Heq.
  { intros [x|p] [y|q] e Wa Wb H; try done; cbn in *; [by apply qeq_spec in H|by apply poly_eqb_val]. }
  split.
  - intros q. split; [apply const_wf|]. intros e. apply const_den.
  - intros x. split; [unfold key_wf, dwf; cbn; apply NoDup_singleton|]. intros e. cbn [key_den key_alg a_symbol]. rewrite pv_cons, pv_nil.
    unfold mono_val. cbn. ring.
  - done.
  - intros a b Wa Wb. assert (key_wf (KPoly (poly_const 0))) as W0 by apply const_wf.
    assert (key_wf (KPoly (poly_const 1))) as W1 by apply const_wf.
    unfold alg_times, alg_zero, alg_one. cbn [a_eq a_real a_mul key_alg].
    destruct (key_eqb a (KPoly (poly_const 0))) eqn:E1; cbn [orb].
    { split; [done|]. intros e. rewrite (Heq a _ e Wa W0 E1). cbn [key_den]. rewrite const_den. ring. }
    destruct (key_eqb b (KPoly (poly_const 0))) eqn:E2; cbn [orb].
    { split; [done|]. intros e. rewrite (Heq b _ e Wb W0 E2). cbn [key_den]. rewrite const_den. ring. }
    destruct (key_eqb a (KPoly (poly_const 1))) eqn:E3.
    { split; [done|]. intros e. rewrite (Heq a _ e Wa W1 E3). cbn [key_den]. rewrite const_den. ring. }
    destruct (key_eqb b (KPoly (poly_const 1))) eqn:E4.
    { split; [done|]. intros e. rewrite (Heq b _ e Wb W1 E4). cbn [key_den]. rewrite const_den. ring. }
    destruct a as [x|p], b as [y|q]; cbn [key_mul key_wf key_den].
    + done.
    + split; [apply key_mul_wf|]. intros e. rewrite key_mul_den, const_den. ring.
    + split; [apply key_mul_wf|]. intros e. by rewrite key_mul_den, const_den.
    + split; [apply key_mul_wf|]. intros e. by rewrite key_mul_den.
  - done.
  - intros [x|p] W; cbn; [by apply qeq_spec|by apply poly_eqb_spec].
  - intros [x|p] [y|q] Wa Wb; cbn; try done; [intros ->%qeq_spec; by apply qeq_spec|].
    intros H%poly_eqb_spec; try done. by apply poly_eqb_spec.
  - intros [x|p] [y|q] [z|r] Wa Wb Wc; cbn; try done; [intros ->%qeq_spec; done|].
    intros H1%poly_eqb_spec H2%poly_eqb_spec; try done. apply poly_eqb_spec; [done|done|]. by rewrite H1.
Qed.

(** * Weights whose monomials are all different *)

Notation single := (fun m : list string * Qc => KPoly [m]).
Lemma single_eq m m' : key_eqb (KPoly [m]) (KPoly [m']) = true -> m = m'.
Proof.
  cbn [key_eqb]. intros H. apply poly_eqb_spec in H; [|unfold dwf; cbn; apply NoDup_singleton..].
  apply Permutation_singleton_l in H. by injection H.
Qed.

Section distinct.
  Variable simplify : fm -> fm.
  Hypothesis HS : sound_simplifier simplify.
  Notation add := (pw_add key_alg key_two simplify true).
  Definition singles (p : list (pkey * fm)) (ms : list (list string * Qc)) : Prop :=
    map fst p = map single ms /\ NoDup ms.

  Lemma singles_miss (p : list (pkey * fm)) ms m : map fst p = map single ms -> m ∉ ms -> kget key_alg p (KPoly [m]) = None.
  Proof.
    intros Hp Hm. apply kget_none. apply Forall_forall. intros kc Hin. apply not_true_iff_false. intros H.
    assert (kc.1 ∈ map fst p) as Hk by (apply elem_of_list_In, in_map, elem_of_list_In, Hin).
    rewrite Hp in Hk. apply elem_of_list_In, in_map_iff in Hk as (m' & Hm' & Hin'). rewrite <- Hm' in H.
    cbn [key_alg a_eq] in H. apply single_eq in H as ->. apply Hm. by apply elem_of_list_In.
  Qed.

  Lemma addall_singles l : forall p ms ns, map fst p = map single ms -> map fst l = map single ns -> NoDup (ms ++ ns) ->
    exists p' ms', addall key_alg key_two simplify true p l = Ok p' /\ map fst p' = map single ms' /\ NoDup ms' /\ ms' ⊆ ms ++ ns.
  Proof.
    unfold addall. induction l as [|[k c] l IH]; intros p ms ns Hp Hl Hnd.
    - exists p, ms. split; [done|]. split; [done|]. apply NoDup_app in Hnd as (? & ? & ?). split; [done|]. intros x. rewrite elem_of_app. auto.
    - destruct ns as [|m ns]; [done|]. injection Hl as -> Hl. cbn [fold_left rbind fst snd].
      assert (NoDup (ms ++ ns)) as Hnd1 by by apply NoDup_app in Hnd as (? & Hd & [? ?]%NoDup_cons); apply NoDup_app;
        (split; [done|split; [|done]]); intros x Hx Hx'; apply (Hd x Hx); right.
      unfold addpiece at 2. destruct (is_false c).
      + destruct (IH p ms ns Hp Hl Hnd1) as (p' & ms' & H1 & H2 & H3 & H4). exists p', ms'. split; [done|]. split; [done|]. split; [done|].
        intros x Hx%H4. rewrite elem_of_app in *. rewrite elem_of_cons. tauto.
      + rewrite (singles_miss p ms m Hp).
        2:{ apply NoDup_app in Hnd as (_ & Hd & _). intros Hm. apply (Hd m Hm). by left. }
        rewrite kset_none by (apply (singles_miss p ms m Hp); apply NoDup_app in Hnd as (_ & Hd & _); intros Hm; apply (Hd m Hm); by left).
        destruct (IH (p ++ [(KPoly [m], simplify c)]) (ms ++ [m]) ns) as (p' & ms' & H1 & H2 & H3 & H4).
        * rewrite !map_app, Hp. done.
        * done.
        * by rewrite <- app_assoc.
        * exists p', ms'. split; [done|]. split; [done|]. split; [done|]. intros x Hx%H4. by rewrite <- app_assoc in Hx.
  Qed.

  Lemma filter_singles (ok : pkey * fm -> bool) p ms : singles p ms -> exists ms', singles (List.filter ok p) ms' /\ ms' ⊆ ms.
  Proof.
    revert ms. induction p as [|kc p IH]; intros ms [H1 H2].
    - exists []. split; [split; [done|constructor]|]. by intros ? ?%elem_of_nil.
    - destruct ms as [|m ms]; [done|]. injection H1 as Hk H1. apply NoDup_cons in H2 as [Hm H2].
      destruct (IH ms (conj H1 H2)) as (ms' & [H3 H4] & H5). cbn [List.filter]. destruct (ok kc).
      + exists (m :: ms'). split; [split; [cbn; by rewrite Hk, H3|constructor; auto]|].
        intros x [->|Hx]%elem_of_cons; [by left|]. right. auto.
      + exists ms'. split; [done|]. intros x Hx. right. auto.
  Qed.

  Lemma add_singles p q ms ns : singles p ms -> singles q ns -> (forall m, m ∈ ms -> m ∉ ns) ->
    exists r rs, add p q = Ok r /\ singles r rs /\ rs ⊆ ms ++ ns.
  Proof.
    intros [P1 P2] [Q1 Q2] Hd. unfold pw_add. destruct p as [|kp p].
    { exists q, ns. split; [done|]. split; [done|]. intros x ?. rewrite elem_of_app. auto. }
    destruct q as [|kq q].
    { exists (kp :: p), ms. split; [done|]. split; [done|]. intros x ?. rewrite elem_of_app. auto. }
    destruct (filter_singles (fun ec => negb (is_false ec.2) && negb (a_eq key_alg ec.1 (alg_zero key_alg)))
      ((kp :: p) ++ kq :: q) (ms ++ ns)) as (rs & [R1 R2] & R3).
    { split; [by rewrite !map_app, P1, Q1|]. apply NoDup_app. done. }
    destruct (addall_singles _ [] [] rs eq_refl R1) as (r & rs' & H1 & H2 & H3 & H4); [done|].
    exists r, rs'. split; [done|]. split; [done|]. intros x Hx. apply R3. by apply H4 in Hx.
  Qed.

  Lemma condition_singles p ms c : singles p ms -> singles (pw_condition p c) ms.
  Proof. intros [H1 H2]. split; [|done]. unfold pw_condition. rewrite map_map. rewrite <- H1. by apply map_ext. Qed.

  Lemma reduce_singles ps mss : Forall2 singles ps mss -> ps <> [] -> NoDup (concat mss) ->
    exists r rs, reduceM add ps = Ok r /\ singles r rs /\ rs ⊆ concat mss.
  Proof.
    intros HF Hne Hnd. destruct HF as [|p ms ps mss Hp HF]; [done|]. cbn [reduceM].
    assert (forall p rs0 acc, singles p rs0 -> rs0 ⊆ acc -> NoDup (acc ++ concat mss) ->
      exists r rs, fold_left (fun r y => let! r := r in add r y) ps (Ok p) = Ok r /\ singles r rs /\ rs ⊆ acc ++ concat mss) as HG.
    { clear Hnd Hp Hne ms p. induction HF as [|q ns ps mss Hq _ IH]; intros p rs0 acc Hp Hsub Hnd.
      - exists p, rs0. split; [done|]. split; [done|]. intros x ?. rewrite elem_of_app. auto.
      - cbn [fold_left rbind]. cbn [concat] in Hnd. rewrite app_assoc in Hnd.
        destruct (add_singles p q rs0 ns Hp Hq) as (r1 & rs1 & -> & H2 & H3).
        { intros m Hm Hm'. apply NoDup_app in Hnd as (Hnd & _ & _). apply NoDup_app in Hnd as (_ & Hd & _). apply (Hd m); auto. }
        destruct (IH r1 rs1 (acc ++ ns) H2) as (r & rs & H4 & H5 & H6); [|done|].
        { intros x Hx%H3. rewrite elem_of_app in *. destruct Hx; auto. }
        exists r, rs. split; [done|]. split; [done|]. cbn [concat]. by rewrite app_assoc. }
    destruct (HG p ms ms Hp) as (r & rs & H1 & H2 & H3); [done|done|]. eauto.
  Qed.

  Lemma true_simpl c : (forall e, eval e c = Some (VB true)) -> is_false c = false /\ forall e, eval e (simplify c) = Some (VB true).
  Proof.
    intros H. split; [|intros e; by apply HS]. destruct (is_false c) eqn:E; [|done].
    by pose proof (is_false_value (Env (fun _ => false) (fun _ => 0%Qc)) c true E (H _)).
  Qed.

  Lemma scaled_single n q x : q <> 0%Qc -> exists c,
    walk (pw_walker key_alg key_two simplify true) (S (S n)) (TimesN [RealC q; Sym x TReal]) = Ok [(KPoly [([x], q)], c)].
  Proof.
    intros Hq. cbn [walk dispatch w_times pw_walker]. rewrite !rmapM_cons. cbn [walk dispatch w_const w_symbol pw_walker rbind rmapM].
    cbn [reduceM fold_left rbind]. unfold pw_mul, pw_real, pw_symbol. cbn [flat_map app]. unfold mul_piece. cbn [fst snd].
    assert (a_eq key_alg (a_real key_alg q) (alg_zero key_alg) = false) as ->.
    { apply not_true_iff_false. intros H. apply single_eq in H. by injection H. }
    assert (a_eq key_alg (a_symbol key_alg x) (alg_zero key_alg) = false) as Hx0.
    { apply not_true_iff_false. intros H. apply single_eq in H. done. }
    rewrite Hx0.
    assert (a_eq key_alg (a_symbol key_alg x) (alg_one key_alg) = false) as Hx1.
    { apply not_true_iff_false. intros H. apply single_eq in H. done. }
    rewrite Hx1. cbn [negb andb].
    destruct (true_simpl (mkAnd [BoolC true; BoolC true])) as [_ Ht]; [done|].
    destruct (true_simpl _ Ht) as [-> _]. cbn [negb].
    destruct (a_eq key_alg (a_real key_alg q) (alg_one key_alg)) eqn:E1.
    { apply single_eq in E1. injection E1 as ->. rewrite Hx0. cbn [negb app]. unfold addall. cbn [fold_left rbind fst snd].
      unfold addpiece. destruct (true_simpl _ Ht) as [-> _]. by eexists. }
    assert (alg_times key_alg (a_real key_alg q) (a_symbol key_alg x) = KPoly [([x], q)]) as ->.
    { unfold alg_times. rewrite E1, Hx0, Hx1.
      assert (a_eq key_alg (a_real key_alg q) (alg_zero key_alg) = false) as ->.
      { apply not_true_iff_false. intros H. apply single_eq in H. by injection H. }
      cbn [orb key_alg a_mul a_real a_symbol key_mul poly_alg]. do 2 f_equal.
      cbn. f_equal. f_equal. ring. }
    assert (a_eq key_alg (KPoly [([x], q)]) (alg_zero key_alg) = false) as ->.
    { apply not_true_iff_false. intros H. apply single_eq in H. done. }
    cbn [negb app]. unfold addall. cbn [fold_left rbind fst snd]. unfold addpiece.
    destruct (true_simpl _ Ht) as [-> _]. by eexists.
  Qed.

  Lemma distinct_split f : forall ms n, additive simple_leaf f ms -> NoDup ms -> msize f <= n ->
    exists p rs, walk (pw_walker key_alg key_two simplify true) n f = Ok p /\ singles p rs /\ rs ⊆ ms.
  Proof.
    induction f as [x t|b|q|z|l IHl|l IHl|f IHf|f g IHf IHg|f g IHf IHg|c f g IHc IHf IHg|l IHl|f g IHf IHg|l IHl|f g IHf IHg|f g IHf IHg|f g IHf IHg|f g IHf IHg|f IHf|f IHf]
      using fm_ind'; intros ms n HA Hnd Hn; inversion HA as [? ? Hleaf|? ? ? la lb Ha Hb|? mss Hne HF]; subst; try by inversion Hleaf.
    - inversion Hleaf; subst. destruct n; [cbn in Hn; lia|]. eexists _, [([x], 1%Qc)]. split; [done|]. split; [split; [done|done]|done].
    - inversion Hleaf; subst. destruct n; [cbn in Hn; lia|]. eexists _, [([], q)]. split; [done|]. split; [split; [done|done]|done].
    - destruct n; [cbn in Hn; lia|]. cbn [msize] in Hn. apply NoDup_app in Hnd as (N1 & N2 & N3).
      destruct (IHf la n Ha N1) as (p & ps & H1 & H2 & H3); [lia|].
      destruct (IHg lb n Hb N3) as (q & qs & H4 & H5 & H6); [lia|].
      cbn [walk dispatch w_ite pw_walker]. rewrite H1, H4. cbn [rbind]. unfold pw_ite.
      destruct (add_singles (pw_condition p c) (pw_condition q (mkNot c)) ps qs) as (r & rs & H7 & H8 & H9).
      + by apply condition_singles.
      + by apply condition_singles.
      + intros m Hm%H3 Hm'%H6. by apply (N2 m).
      + exists r, rs. split; [done|]. split; [done|]. intros x Hx%H9. rewrite elem_of_app in *. destruct Hx; auto.
    - destruct n; [cbn in Hn; lia|]. cbn [msize] in Hn. cbn [walk dispatch w_plus pw_walker].
      assert (exists ps rss, rmapM (walk (pw_walker key_alg key_two simplify true) n) l = Ok ps /\ Forall2 singles ps rss /\
        NoDup (concat rss) /\ concat rss ⊆ concat mss /\ length ps = length l) as (ps & rss & H1 & H2 & H3 & H4 & H5).
      { clear HA Hne. revert Hnd Hn. induction HF as [|f ms fs mss Hf _ IH]; intros Hnd Hn.
        - exists [], []. split; [done|]. split; [constructor|]. split; [constructor|]. split; [by intros ? ?%elem_of_nil|done].
        - apply Forall_cons in IHl as [IHf IHl]. cbn [map concat] in *. apply NoDup_app in Hnd as (N1 & N2 & N3).
          change (S (msize f + list_sum (map msize fs)) <= S n) in Hn.
          destruct (IHf ms n Hf N1) as (p & rs & G1 & G2 & G3); [lia|].
          destruct (IH IHl N3) as (ps & rss & G4 & G5 & G6 & G7 & G8); [lia|].
          exists (p :: ps), (rs :: rss). rewrite rmapM_cons, G1, G4. cbn [rbind concat length]. split; [done|]. split; [by constructor|].
          split; [|split; [|by f_equal]].
          + apply NoDup_app. split; [apply G2|]. split; [|done]. intros x Hx Hx'. apply (N2 x); auto.
          + intros x. rewrite !elem_of_app. intros [?|?]; auto. }
      rewrite H1. cbn [rbind]. destruct (reduce_singles ps rss H2) as (r & rs & H6 & H7 & H8); [|done|].
      { intros ->. by destruct l. }
      exists r, rs. split; [done|]. split; [done|]. intros x Hx%H8. auto.
    - inversion Hleaf as [| |q x Hq]; subst. destruct n as [|[|n]]; [cbn in Hn; unfold list_sum in Hn; cbn in Hn; lia..|].
      destruct (scaled_single n q x Hq) as [c ->]. eexists _, [([x], q)]. split; [done|]. split; [split; [done|apply NoDup_singleton]|done].
  Qed.
End distinct.

(** Equations for running examples. *)
Section run.
  Context {E : Type} (A : alg E) (two : E) (simplify : fm -> fm).
  Lemma addpiece_new p e c c' : is_false c = false -> kget A p e = None -> simplify c = c' ->
    addpiece A two simplify false p e c = Ok (p ++ [(e, c')]).
  Proof. intros H1 H2 <-. unfold addpiece. rewrite H1, H2. by rewrite kset_none. Qed.
  Lemma addpiece_hit p e c old c1 c2 e2 p1 : is_false c = false -> kget A p e = Some old ->
    simplify (mkAnd [mkOr [old; c]; mkNot (mkAnd [old; c])]) = c1 -> simplify (mkAnd [old; c]) = c2 ->
    alg_times A two e = e2 -> (if is_false c1 then kpop A p e else kset A p e c1) = p1 ->
    addpiece A two simplify false p e c =
      if is_false c2 then Ok (kpop A p1 e2) else if kmem A p1 e2 then Err AssertionError else Ok (kset A p1 e2 c2).
  Proof. intros H1 H2 H3 H4 H5 H6. unfold addpiece. rewrite H1, H2, H3, H4, H5. cbn [andb]. by rewrite H6. Qed.
  Lemma addall_nil p : addall A two simplify false p [] = Ok p.
  Proof. done. Qed.
  Lemma addall_cons p e c l : addall A two simplify false p ((e, c) :: l) =
    (let! p' := addpiece A two simplify false p e c in addall A two simplify false p' l).
  Proof. unfold addall. cbn [fold_left rbind fst snd]. destruct (addpiece _ _ _ _ _ _ _); [done|]. cbn [rbind]. by induction l. Qed.
End run.
