(** Proofs about the printer (C59). *)

From stdpp Require Import pretty.
From Verif Require Import Base Dict Smt Walk_Model Math_Model Math_Spec Poly_Proofs Linear_Proofs Arith_Proofs
  Walk_Proofs Transform_Model Print_Model Print_Spec.

Notation C := list_ascii_of_string.

Lemma C_app s t : C (s +:+ t) = C s ++ C t.
Proof. induction s as [|c s IH]; [done|]. cbn. by f_equal. Qed.
Lemma C_inj s t : C s = C t -> s = t.
Proof. intros H. rewrite <- (string_of_list_ascii_of_string s), H. apply string_of_list_ascii_of_string. Qed.

(** * Cutting a text at the first character of a kind *)

Lemma cut (P : ascii -> bool) l1 c1 r1 l2 c2 r2 :
  forallb P l1 = true -> forallb P l2 = true -> P c1 = false -> P c2 = false ->
  l1 ++ c1 :: r1 = l2 ++ c2 :: r2 -> l1 = l2 /\ c1 = c2 /\ r1 = r2.
Proof.
  revert l2. induction l1 as [|a l1 IH]; intros [|b l2] H1 H2 P1 P2 He; cbn in *.
  - by injection He.
  - injection He as -> _. apply andb_true_iff in H2 as [? _]. congruence.
  - injection He as -> _. apply andb_true_iff in H1 as [? _]. congruence.
  - injection He as -> He. apply andb_true_iff in H1 as [_ H1]. apply andb_true_iff in H2 as [_ H2].
    destruct (IH l2 H1 H2 P1 P2 He) as (-> & ? & ?). done.
Qed.

Definition delim (r : list ascii) : Prop := match r with [] => True | c :: _ => ident_char c = false end.

Lemma cut_ident l1 r1 l2 r2 : forallb ident_char l1 = true -> forallb ident_char l2 = true ->
  delim r1 -> delim r2 -> l1 ++ r1 = l2 ++ r2 -> l1 = l2 /\ r1 = r2.
Proof.
  revert l2. induction l1 as [|a l1 IH]; intros [|b l2] H1 H2 P1 P2 He; cbn in *.
  - done.
  - subst r1. cbn in P1. apply andb_true_iff in H2 as [? _]. congruence.
  - subst r2. cbn in P2. apply andb_true_iff in H1 as [? _]. congruence.
  - injection He as -> He. apply andb_true_iff in H1 as [_ H1]. apply andb_true_iff in H2 as [_ H2].
    destruct (IH l2 H1 H2 P1 P2 He) as (-> & ?). done.
Qed.

Lemma forallb_impl {A} (P Q : A -> bool) l : (forall x, P x = true -> Q x = true) -> forallb P l = true -> forallb Q l = true.
Proof. rewrite !forallb_forall. auto. Qed.

(** * Numbers *)

Lemma pretty_N_char_digit x : digit_char (pretty_N_char x) = true.
Proof. unfold pretty_N_char. by repeat case_match. Qed.

Lemma pretty_N_go_digits x s : forallb digit_char (C s) = true -> forallb digit_char (C (pretty_N_go x s)) = true.
Proof.
  revert s. induction (N.lt_wf_0 x) as [x _ IH]; intros s Hs.
  destruct (decide (x = 0)%N) as [->|Hx]; [by rewrite pretty_N_go_0|].
  rewrite pretty_N_go_step by lia. apply IH; [apply N.div_lt; lia|].
  cbn. rewrite Hs, andb_true_r. apply pretty_N_char_digit.
Qed.
Lemma pretty_N_go_ne x s : (0 < x)%N \/ s <> ""%string -> pretty_N_go x s <> ""%string.
Proof.
  revert s. induction (N.lt_wf_0 x) as [x _ IH]; intros s Hs.
  destruct (decide (x = 0)%N) as [->|Hx]; [rewrite pretty_N_go_0; destruct Hs; [lia|done]|].
  rewrite pretty_N_go_step by lia. apply IH; [apply N.div_lt; lia|]. by right.
Qed.

Lemma pretty_pos_digits p : exists c s, pretty (Zpos p) = String c s /\ digit_char c = true /\ forallb digit_char (C s) = true.
Proof.
  change (pretty (Zpos p)) with (pretty (Npos p)).
  assert (pretty (Npos p) = pretty_N_go (Npos p) "") as -> by done.
  pose proof (pretty_N_go_digits (Npos p) "" eq_refl) as Hd.
  pose proof (pretty_N_go_ne (Npos p) "" (or_introl eq_refl)) as Hn.
  destruct (pretty_N_go (Npos p) "") as [|c s]; [done|].
  cbn in Hd. apply andb_true_iff in Hd as [? ?]. eauto.
Qed.

Definition integral (q : Qc) : bool := Pos.eqb (Qden (this q)) 1.

Lemma integral_qz q : integral q = true -> q = qz (Qnum (this q)).
Proof.
  unfold integral. rewrite Pos.eqb_eq. intros H. apply Qc_is_canon. unfold qz. cbn [this Q2Qc].
  rewrite Qred_correct. destruct (this q) as [n d]. cbn in *. by subst.
Qed.
Lemma num_opp q : Qnum (this (- q)%Qc) = (- Qnum (this q))%Z.
Proof.
  assert (this (- q)%Qc = Qopp (this q)) as ->; [|by destruct (this q)].
  unfold Qcopp, Q2Qc. cbn. rewrite Qred_opp. f_equal. apply (Qcanon.canon q).
Qed.
Lemma integral_opp q : integral (- q)%Qc = integral q.
Proof.
  unfold integral. f_equal. assert (this (- q)%Qc = Qopp (this q)) as ->; [|by destruct (this q)].
  unfold Qcopp, Q2Qc. cbn. rewrite Qred_opp. f_equal. apply (Qcanon.canon q).
Qed.
Lemma num_pos q : (0 < q)%Qc -> (0 < Qnum (this q))%Z.
Proof.
  unfold Qclt, Qlt. change (Qnum (this 0%Qc)) with 0%Z. change (Qden (this 0%Qc)) with 1%positive. lia.
Qed.

Section numbers.
  Context (fmt : Qc -> string) (exact : Qc -> Prop) (FF : float_format fmt exact).
  Local Notation num := (number_text fmt).

  Lemma num_text_pos q : exact q -> (0 < q)%Qc -> exists c s, num q = String c s /\ digit_char c = true /\
    forallb float_char (C s) = true /\ (integral q = true -> forallb digit_char (C s) = true) /\
    (integral q = false -> exists c', In c' (C s) /\ (c' = "." \/ c' = "e")%char).
  Proof.
    intros Hx Hq. unfold number_text. fold (integral q). destruct (integral q) eqn:E.
    - pose proof (num_pos q Hq) as Hp. destruct (Qnum (this q)) as [|p|p]; [lia| |lia].
      destruct (pretty_pos_digits p) as (c & s & -> & Hc & Hs). exists c, s. split_and!; try done.
      eapply forallb_impl; [|exact Hs]. intros x Hx'. unfold float_char. by rewrite Hx'.
    - destruct (ff_pos _ _ FF q Hx Hq) as (c & s & -> & Hc & Hs & Hd). exists c, s. by split_and!.
  Qed.
  Lemma num_text_neg q : exact (- q)%Qc -> (0 < q)%Qc -> exact q /\ num (- q)%Qc = String "-" (num q).
  Proof.
    intros Hx Hq. destruct (ff_neg _ _ FF q Hx Hq) as [Hx' He]. split; [done|].
    unfold number_text. fold (integral q). fold (integral (- q)%Qc). rewrite integral_opp, num_opp.
    destruct (integral q) eqn:E; [|done].
    pose proof (num_pos q Hq) as Hp. destruct (Qnum (this q)) as [|p|p]; [lia| |lia]. done.
  Qed.
  Lemma num_text_0 : num 0%Qc = "0"%string. Proof. done. Qed.

  Lemma num_text_posinj q r : exact q -> exact r -> (0 < q)%Qc -> (0 < r)%Qc -> num q = num r -> q = r.
  Proof.
    intros Xq Xr Hq Hr He.
    destruct (num_text_pos q Xq Hq) as (c & s & Eq & _ & _ & Dq & Fq).
    destruct (num_text_pos r Xr Hr) as (c' & s' & Er & _ & _ & Dr & Fr).
    rewrite Eq, Er in He. injection He as <- <-.
    destruct (integral q) eqn:Iq, (integral r) eqn:Ir.
    - unfold number_text in Eq, Er. fold (integral q) in Eq. fold (integral r) in Er. rewrite Iq in Eq. rewrite Ir in Er.
      rewrite <- Er in Eq. apply (inj pretty) in Eq. rewrite (integral_qz q Iq), (integral_qz r Ir). by f_equal.
    - destruct (Fr eq_refl) as (d & Hd & Hd'). specialize (Dq eq_refl). rewrite forallb_forall in Dq.
      specialize (Dq d Hd). by destruct Hd' as [-> | ->].
    - destruct (Fq eq_refl) as (d & Hd & Hd'). specialize (Dr eq_refl). rewrite forallb_forall in Dr.
      specialize (Dr d Hd). by destruct Hd' as [-> | ->].
    - unfold number_text in Eq, Er. fold (integral q) in Eq. fold (integral r) in Er. rewrite Iq in Eq. rewrite Ir in Er.
      rewrite <- Er in Eq. by apply (ff_inj _ _ FF).
  Qed.

  Lemma opp_cases (q : Qc) : q = 0%Qc \/ (0 < q)%Qc \/ exists p, q = (- p)%Qc /\ (0 < p)%Qc.
  Proof.
    destruct (Qc_dec q 0) as [[H|H]|H]; [|by right; left|by left]. right. right. exists (- q)%Qc.
    split; [ring|]. qclra.
  Qed.

  Lemma digit_not_minus c : digit_char c = true -> c <> "-"%char.
  Proof. by intros H ->. Qed.

  Lemma num_zero_pos q : exact q -> (0 < q)%Qc -> num q <> "0"%string.
  Proof.
    intros Hx Hq He. destruct (integral q) eqn:E.
    - unfold number_text in He. fold (integral q) in He. rewrite E in He.
      change "0"%string with (pretty 0%Z) in He. apply (inj pretty) in He. pose proof (num_pos q Hq). lia.
    - destruct (num_text_pos q Hx Hq) as (c & s & Eq & _ & _ & _ & Fq). rewrite Eq in He. injection He as -> ->.
      by destruct (Fq E) as (? & [] & _).
  Qed.

  Lemma num_inj q r : exact q -> exact r -> num q = num r -> q = r.
  Proof.
    intros Xq Xr He. destruct (opp_cases q) as [->|[Hq|(p & -> & Hp)]], (opp_cases r) as [->|[Hr|(p' & -> & Hp')]].
    - done.
    - symmetry in He. by apply num_zero_pos in He.
    - destruct (num_text_neg p' Xr Hp') as [_ ->] in He. done.
    - by apply num_zero_pos in He.
    - by apply num_text_posinj.
    - rewrite (proj2 (num_text_neg p' Xr Hp')) in He. destruct (num_text_pos q Xq Hq) as (c & s & Eq & Hc & _).
      rewrite Eq in He. injection He as -> _. done.
    - rewrite (proj2 (num_text_neg p Xq Hp)) in He. done.
    - rewrite (proj2 (num_text_neg p Xq Hp)) in He. destruct (num_text_pos r Xr Hr) as (c & s & Eq & Hc & _).
      rewrite Eq in He. injection He as <- _. done.
    - destruct (num_text_neg p Xq Hp) as [X E]. destruct (num_text_neg p' Xr Hp') as [X' E'].
      rewrite E, E' in He. injection He as He. f_equal. by apply num_text_posinj.
  Qed.
End numbers.

(** * Linear sums *)

Lemma ident_cons x : ident x = true -> exists c s, x = String c s /\ digit_char c = false /\
  forallb ident_char (C x) = true /\ x ∉ ["True"; "False"; "if"; "then"; "else"]%string.
Proof.
  unfold ident. destruct x as [|c s]; [done|]. rewrite !andb_true_iff. intros [[H1 H2] H3].
  exists c, s. split_and!; [done|by apply negb_true_iff|done|].
  by apply negb_true_iff, bool_decide_eq_false in H3.
Qed.
Lemma ident_chars x : ident x = true -> forallb ident_char (C x) = true.
Proof. intros H. by destruct (ident_cons x H) as (c & s & -> & _ & ? & _). Qed.

Lemma ident_no_minus x : ident x = true -> starts_minus x = false.
Proof.
  intros H. destruct (ident_cons x H) as (c & s & -> & _ & Hc & _). cbn in Hc. apply andb_true_iff in Hc as [Hc _].
  unfold starts_minus. destruct c as [[] [] [] [] [] [] [] []]; done.
Qed.

Definition neg (q : Qc) : bool := qlt q 0.

Section sums.
  Context (fmt : Qc -> string) (exact : Qc -> Prop) (FF : float_format fmt exact).
  Local Notation num := (number_text fmt).

  (** The text of a term without its sign. *)
  Definition mag (t : string * Qc) : list ascii :=
    if qeq t.2 1 then C t.1
    else C (num (if neg t.2 then - t.2 else t.2)%Qc) ++ "*"%char :: C t.1.
  Definition good_term (t : string * Qc) : Prop := ident t.1 = true /\ t.2 <> 0%Qc /\ (t.2 <> 1%Qc -> exact t.2).
  Definition first_text (t : string * Qc) : list ascii := if neg t.2 then "-"%char :: mag t else mag t.
  Definition rest_text (t : string * Qc) : list ascii :=
    " "%char :: (if neg t.2 then "-" else "+")%char :: " "%char :: mag t.
  Definition sum_text (ts : list (string * Qc)) : list ascii :=
    match ts with [] => ["0"%char] | t :: ts => first_text t ++ concat (map rest_text ts) end.

  Lemma neg_true q : neg q = true -> exists p, q = (- p)%Qc /\ (0 < p)%Qc.
  Proof. unfold neg. rewrite qlt_spec. intros H. exists (- q)%Qc. split; [ring|]. qclra. Qed.
  Lemma neg_false q : neg q = false -> q <> 0%Qc -> (0 < q)%Qc.
  Proof.
    unfold neg. intros H H0. apply qlt_false in H. apply Qcle_lt_or_eq in H as [H|H]; [done|]. by subst.
  Qed.
  Lemma one_not_neg : neg 1 = false. Proof. done. Qed.

  Lemma term_num t : good_term t -> t.2 <> 1%Qc ->
    exists c s, C (num (if neg t.2 then - t.2 else t.2)%Qc) = c :: s /\ digit_char c = true /\ forallb float_char s = true /\
      num t.2 = (if neg t.2 then String "-" (String c (string_of_list_ascii s)) else String c (string_of_list_ascii s)).
  Proof.
    intros (Hx & H0 & Hv) H1. specialize (Hv H1). destruct (neg t.2) eqn:E.
    - destruct (neg_true _ E) as (p & Ep & Hp). rewrite Ep in Hv |- *.
      destruct (num_text_neg _ _ FF p Hv Hp) as [Xp En].
      replace (- - p)%Qc with p by ring. destruct (num_text_pos _ _ FF p Xp Hp) as (c & s & Es & Hc & Hs & _).
      exists c, (C s). rewrite En, Es. rewrite string_of_list_ascii_of_string. by split_and!.
    - pose proof (neg_false _ E H0) as Hp. destruct (num_text_pos _ _ FF t.2 Hv Hp) as (c & s & Es & Hc & Hs & _).
      exists c, (C s). rewrite Es. rewrite string_of_list_ascii_of_string. by split_and!.
  Qed.

  Lemma times_term t : good_term t -> t.2 <> 1%Qc ->
    exists s, times_text [t.1; num t.2] = Ok s /\ C s = first_text t /\ starts_minus s = neg t.2 /\
      C (if neg t.2 then tail1 s else s) = mag t /\ s <> "0"%string.
  Proof.
    intros Ht H1. destruct (term_num t Ht H1) as (c & s & En & Hc & Hs & Ex).
    destruct Ht as (Hx & H0 & Hv). specialize (Hv H1). destruct t as [x v]. cbn [fst snd] in *.
    destruct (ident_cons x Hx) as (cx & sx & -> & Hcx & Hsx & Hkx).
    set (X := String cx sx) in *.
    assert (X <> "0"%string) as X0 by (by intros [= -> ->]).
    assert (X <> "1"%string) as X1 by (by intros [= -> ->]).
    assert (num v <> "0"%string) as N0.
    { intros He. apply H0. change "0"%string with (num 0%Qc) in He. revert He.
      destruct (opp_cases v) as [->|[Hp|(p & -> & Hp)]]; [done| |].
      - intros He. by apply (num_zero_pos _ _ FF) in He.
      - rewrite (proj2 (num_text_neg _ _ FF p Hv Hp)). done. }
    assert (num v <> "1"%string) as N1.
    { intros He. apply H1. revert He.
      destruct (opp_cases v) as [->|[Hp|(p & -> & Hp)]]; [done| |].
      - intros He. destruct (integral v) eqn:Iv.
        + unfold number_text in He. fold (integral v) in He. rewrite Iv in He.
          change "1"%string with (pretty 1%Z) in He. apply (inj pretty) in He. rewrite (integral_qz v Iv), He.
          apply Qc_is_canon. reflexivity.
        + destruct (num_text_pos _ _ FF v Hv Hp) as (c' & s' & Eq & _ & _ & _ & Fq). rewrite Eq in He.
          injection He as -> ->. by destruct (Fq Iv) as (? & [] & _).
      - rewrite (proj2 (num_text_neg _ _ FF p Hv Hp)). done. }
    assert (num v <> ""%string) as Ne by (rewrite Ex; by destruct (neg v)).
    unfold times_text. cbn [existsb forallb List.filter].
    rewrite !(bool_decide_false (X = _)), !(bool_decide_false (num v = _)) by done.
    cbn [orb andb negb List.filter existsb]. rewrite (bool_decide_false (X = _)), (bool_decide_false (num v = _)) by done.
    cbn [orb List.filter map]. rewrite (ident_no_minus X) by done.
    assert (starts_minus (num v) = neg v) as Hm.
    { rewrite Ex. destruct (neg v); [done|]. unfold starts_minus. by destruct c as [[] [] [] [] [] [] [] []]. }
    rewrite Hm.
    assert (starts_digit X = false) as DX by done.
    assert ((if neg v then tail1 (num v) else num v) = String c (string_of_list_ascii s)) as -> by (rewrite Ex; by destruct (neg v)).
    set (M := String c (string_of_list_ascii s)).
    assert (starts_digit M = true) as DM by done.
    rewrite DX, DM. cbn [negb List.filter app join String.concat]. 
    assert (C M = C (num (if neg v then - v else v)%Qc)) as CM.
    { rewrite En. unfold M. cbn. by rewrite list_ascii_of_string_of_list_ascii. }
    assert (C (join "*" [M; X]) = mag (X, v)) as CJ.
    { unfold mag, join. cbn [fst snd String.concat].
      assert (qeq v 1 = false) as -> by by apply qeq_false.
      rewrite !C_app, CM. done. }
    eexists. split; [reflexivity|]. change (M +:+ "*" +:+ X)%string with (join "*" [M; X]). set (J := join "*" [M; X]) in *. assert (J = join "*" [M; X]) as HJ by done. clearbody J.
    destruct (neg v) eqn:Hv'.
    - cbn [List.filter length]. change (Nat.odd 1) with true. cbn iota.
      unfold first_text. cbn [snd]. rewrite Hv'. rewrite C_app, CJ. split_and!; done.
    - cbn [List.filter length]. change (Nat.odd 0) with false. cbn iota.
      unfold first_text. cbn [snd]. rewrite Hv'. change ("" +:+ J)%string with J.
      split_and!; [done| |done|].
      + rewrite HJ. unfold M, join. cbn. by destruct c as [[] [] [] [] [] [] [] []].
      + intros He. apply (f_equal C) in He. rewrite CJ in He. unfold mag in He. cbn [fst snd] in He.
        assert (qeq v 1 = false) as Hq by by apply qeq_false. rewrite Hq, Hv', <- CM in He. unfold M in He. cbn in He.
        injection He as _ He. by apply app_eq_nil in He as [_ ?].
  Qed.

  Definition shows (s : string) (t : string * Qc) : Prop :=
    C s = first_text t /\ starts_minus s = neg t.2 /\ C (if neg t.2 then tail1 s else s) = mag t /\ s <> "0"%string.

  Lemma term_walk cmp t : good_term t -> exists g s, li_term ([t.1], t.2) = Ok g /\ shows s t /\
    (forall n, msize g <= n -> walk (print_walker fmt cmp) n g = Ok s) /\
    (t.2 <> 1%Qc -> constants g = [t.2]).
  Proof.
    intros Ht. unfold li_term. cbn [fst snd map mkTimes rbind]. destruct (qeq t.2 1) eqn:E.
    - apply qeq_spec in E. eexists _, t.1. split; [done|]. split; [|split].
      + unfold shows, first_text, mag. rewrite E. rewrite one_not_neg. change (qeq 1 1) with true. cbn iota.
        split_and!; try done.
        * apply ident_no_minus, Ht.
        * intros He. destruct (ident_cons t.1 (proj1 Ht)) as (c & s & Hc & Hd & _). rewrite He in Hc.
          injection Hc as <- _. done.
      + intros [|n] Hn; [cbn in Hn; lia|]. done.
      + done.
    - apply qeq_false in E. destruct (times_term t Ht E) as (s & Hs & Hrest). eexists _, s. split; [done|].
      split; [exact Hrest|]. split; [|done].
      intros [|[|n]] Hn; cbn in Hn; try lia. exact Hs.
  Qed.

  Lemma plus_shows ss ts : Forall2 shows ss ts -> ts <> [] ->
    exists s, plus_text ss = Ok s /\ C s = sum_text ts.
  Proof.
    intros H Hne. destruct H as [|s t ss ts Hs H]; [done|]. clear Hne.
    assert (List.filter (fun a => negb (bool_decide (a = "0"%string))) ss = ss) as Hf.
    { induction H as [|s' t' ss ts Hs' H IH]; [done|]. cbn. rewrite bool_decide_false by apply Hs'. cbn. by rewrite IH. }
    unfold plus_text. cbn [forallb List.filter]. rewrite bool_decide_false by apply Hs. cbn [andb negb]. rewrite Hf.
    eexists. split; [reflexivity|]. cbn [sum_text]. destruct Hs as (Hs & _). rewrite <- Hs. clear Hs Hf.
    revert s. induction H as [|s' t' ss ts Hs' H IH]; intros s; [cbn; by rewrite app_nil_r|].
    cbn [fold_left map concat]. rewrite IH, app_assoc. f_equal.
    destruct Hs' as (_ & Hm & Hg & _). rewrite Hm. unfold rest_text. destruct (neg t'.2); by rewrite !C_app, Hg.
  Qed.

  (** * A comparison *)
  Definition poly_terms (d : pdict) : list (string * Qc) :=
    flat_map (fun kv : mono * Qc => match kv.1 with [] => [] | x :: _ => [(x, kv.2)] end) d.
  Definition tsum (e : env) (ts : list (string * Qc)) : Qc := qsum (map (fun t => (t.2 * er e t.1)%Qc) ts).

  Lemma poly_terms_filter d :
    poly_terms d = poly_terms (List.filter (fun kv => negb (bool_decide (kv.1 = CONST_KEY))) d).
  Proof.
    induction d as [|[[|x k] v] d IH]; [done|..]; cbn [List.filter fst poly_terms flat_map].
    - rewrite bool_decide_true by done. cbn [negb]. exact IH.
    - rewrite bool_decide_false by done. cbn [negb poly_terms flat_map]. cbn [fst snd app]. f_equal. exact IH.
  Qed.
  Lemma poly_terms_val e d : Forall (fun kv => length kv.1 <= 1) d ->
    poly_val e (List.filter (fun kv => negb (bool_decide (kv.1 = CONST_KEY))) d) = tsum e (poly_terms d).
  Proof.
    induction 1 as [|[k v] d Hk H IH]; [done|]. cbn [List.filter fst].
    destruct k as [|x [|]]; cbn in Hk; [| |lia].
    - rewrite bool_decide_true by done. cbn [negb]. by rewrite IH.
    - rewrite bool_decide_false by done. cbn [negb]. rewrite pv_cons, IH. unfold tsum, poly_terms. cbn [flat_map fst snd app map].
      unfold qsum at 2. cbn [fold_right fst snd]. f_equal. unfold mono_val. cbn [map qprod fold_right]. ring.
  Qed.

  Lemma terms_walk cmp l : Forall good_term l ->
    exists gs ss, rmapM li_term (map (fun t : string * Qc => ([t.1], t.2)) l) = Ok gs /\ Forall2 shows ss l /\
      (forall n, Forall (fun g => msize g <= n) gs -> rmapM (walk (print_walker fmt cmp) n) gs = Ok ss) /\
      (length gs = length l).
  Proof.
    induction 1 as [|t l Ht Hl IH]; [exists [], []; by split_and!|].
    destruct IH as (gs & ss & E & Hs & Hw & Hlen).
    destruct (term_walk cmp t Ht) as (g & s & Eg & Hsh & Hwg & _).
    exists (g :: gs), (s :: ss). cbn [map]. rewrite rmapM_cons, Eg, E. split_and!.
    - done.
    - by constructor.
    - intros n Hn. inversion Hn; subst. rewrite rmapM_cons, Hwg, Hw by done. done.
    - cbn. by rewrite Hlen.
  Qed.

  Lemma filter_terms d : Forall (fun kv : mono * Qc => length kv.1 <= 1) d ->
    List.filter (fun kv => negb (bool_decide (kv.1 = CONST_KEY))) d = map (fun t : string * Qc => ([t.1], t.2)) (poly_terms d).
  Proof.
    induction 1 as [|[k v] d Hk H IH]; [done|]. cbn [List.filter fst].
    destruct k as [|x [|]]; cbn in Hk; [| |lia].
    - rewrite bool_decide_true by done. exact IH.
    - rewrite bool_decide_false by done. cbn [negb]. unfold poly_terms. cbn [flat_map fst snd app map]. f_equal. exact IH.
  Qed.

  Definition test_of (d : pdict) (l r : fm) : Prop := li_to_smt d = Ok (LeN l r) \/ li_to_smt d = Ok (LtN l r).

  Lemma li_shows d : dwf d -> Forall (fun kv : mono * Qc => length kv.1 <= 1) d ->
    (forall k v, (k, v) ∈ d -> v <> 0%Qc /\ forall x, x ∈ k -> ident x = true) ->
    (forall g q, li_to_smt d = Ok g -> q ∈ constants g -> exact q) ->
    exists l r sl, test_of d l r /\ side_text fmt l = Ok sl /\ side_text fmt r = Ok (num (li_b d)) /\
      C sl = sum_text (poly_terms d) /\ Forall good_term (poly_terms d) /\ exact (li_b d).
  Proof.
    intros Hwf Hlin Hd Hex. destruct (only_const d) eqn:Ho.
    - destruct d as [|[[|] c] [|]]; try done.
      + exists (RealC 0), (RealC 0), "0"%string. split; [by left|].
        replace (li_b []) with 0%Qc by (unfold li_b, li_coefficient; cbn; ring). split_and!; try done; [constructor|].
        by apply (Hex (LeN (RealC 0) (RealC 0))); [|left].
      + exists (RealC 0), (RealC (- c)), "0"%string. split; [by left|]. split_and!; try done; [constructor|].
        apply (Hex (LeN (RealC 0) (RealC (- c)))); [done|]. right. by left.
    - assert (li_to_smt d =
        let! ts := rmapM li_term (List.filter (fun kv => negb (bool_decide (kv.1 = CONST_KEY))) d) in
        let! s := mkPlus ts in Ok (LtN s (RealC (li_b d)))) as E.
      { destruct d as [|[[|] v] [|]]; done. }
      pose proof (filter_const_nil d Hwf Ho) as Hne. rewrite (filter_terms d Hlin) in E, Hne.
      assert (poly_terms d <> []) as Hpn by (by intros Hz; rewrite Hz in Hne). clear Hne.
      assert (Forall (fun t => ident t.1 = true /\ t.2 <> 0%Qc) (poly_terms d)) as Hp.
      { apply Forall_forall. intros [x v] Hin. apply elem_of_list_In, in_flat_map in Hin as ([k w] & Hkw & Hin).
        apply elem_of_list_In in Hkw. destruct (Hd _ _ Hkw) as [Hw Hk]. cbn in Hin. destruct k as [|y k]; [done|].
        destruct Hin as [[= <- <-]|[]]. split; [apply Hk; by left|done]. }
      assert (exists gs, rmapM li_term (map (fun t : string * Qc => ([t.1], t.2)) (poly_terms d)) = Ok gs /\
        forall t, t ∈ poly_terms d -> t.2 <> 1%Qc -> exists g, g ∈ gs /\ t.2 ∈ constants g) as (gs & Egs & Hgs).
      { clear -Hp. induction Hp as [|t l [Ht1 Ht2] Hl IH]; [exists []; split; [done|]; intros t Hin; inversion Hin|].
        destruct IH as (gs & Egs & Hgs). cbn [map]. rewrite rmapM_cons, Egs.
        destruct (li_term_ok ([t.1], t.2)) as [g Eg]; [done|]. rewrite Eg. cbn [rbind].
        exists (g :: gs). split; [done|]. intros t' Hin Hv. apply elem_of_cons in Hin as [->|Hin].
        - exists g. split; [by left|]. unfold li_term in Eg. cbn in Eg.
          destruct (qeq t.2 1) eqn:Eq; [by apply qeq_spec in Eq|]. injection Eg as <-. cbn. by left.
        - destruct (Hgs t' Hin Hv) as (g' & ? & ?). exists g'. split; [by right|done]. }
      rewrite Egs in E. cbn [rbind] in E.
      assert (exists s, mkPlus gs = Ok s) as [s Es].
      { apply rmapM_ok_length in Egs. rewrite map_length in Egs. destruct gs as [|? [|]]; cbn; eauto.
        destruct (poly_terms d); done. }
      rewrite Es in E. cbn [rbind] in E.
      assert (forall g q, g ∈ gs -> q ∈ constants g -> q ∈ constants s) as Hcs.
      { intros g q Hg Hq. destruct gs as [|g1 [|g2 gs]]; [inversion Hg| |].
        - cbn in Es. injection Es as <-. apply elem_of_list_singleton in Hg as ->. done.
        - cbn in Es. injection Es as <-. cbn [constants]. apply elem_of_list_In, in_flat_map. exists g.
          split; by apply elem_of_list_In. }
      assert (Forall good_term (poly_terms d)) as Hgood.
      { apply Forall_forall. intros t Hin. rewrite Forall_forall in Hp. destruct (Hp t Hin) as [H1 H2].
        split_and!; [done|done|]. intros Hv. destruct (Hgs t Hin Hv) as (g & Hg & Hq).
        apply (Hex _ _ E). cbn [constants]. apply elem_of_app. left. by eapply Hcs. }
      destruct (terms_walk (fun _ _ => Err OutOfFuel) _ Hgood) as (gs' & ss & Egs' & Hss & Hw & Hlen).
      rewrite Egs in Egs'. injection Egs' as <-.
      assert (exists sl, side_text fmt s = Ok sl /\ C sl = sum_text (poly_terms d)) as (sl & Hsl & Hsl').
      { unfold side_text. destruct gs as [|g1 [|g2 gs]]; [done| |].
        - cbn in Es. injection Es as <-. specialize (Hw (msize g1)). rewrite rmapM_cons in Hw.
          specialize (Hw ltac:(by repeat constructor)).
          destruct (walk _ _ g1) as [s1|]; [|done]. cbn in Hw. injection Hw as Hw. subst ss. inversion Hss as [|? t ? ? Hs1 Hs2]; subst.
          inversion Hs2; subst. exists s1. split; [done|]. cbn. rewrite app_nil_r. by destruct Hs1.
        - cbn [mkPlus] in Es. injection Es as <-. cbn [msize walk dispatch print_walker w_plus].
          set (L := g1 :: g2 :: gs) in *. rewrite Hw.
          + cbn [rbind]. destruct (plus_shows ss (poly_terms d) Hss Hpn) as (sl & -> & ?). eauto.
          + apply Forall_forall. intros g Hg. pose proof (Walk_Proofs.msize_in g L Hg). lia. }
      exists s, (RealC (li_b d)), sl. split; [by right|]. split_and!; try done.
      apply (Hex _ _ E). cbn [constants]. apply elem_of_app. right. by left.
  Qed.
End sums.

(** * The variables of a linear form are those of the comparison *)

Section names.
  Context (Q : string -> Prop).
  Definition nkeys (d : pdict) : Prop := Forall (fun kv : mono * Qc => Forall Q kv.1) d.
  Lemma nkeys_dset d k v : nkeys d -> Forall Q k -> nkeys (dset d k v).
  Proof.
    intros H Hk. induction H as [|[k' w] d Hk' H IH]; cbn [dset]; [constructor; [done|constructor]|].
    destruct (decide _); by constructor.
  Qed.
  Lemma nkeys_plus d1 d2 : nkeys d1 -> nkeys d2 -> nkeys (dict_plus d1 d2).
  Proof.
    intros H1 H2. unfold dict_plus. revert d1 H1.
    induction H2 as [|[k v] d2 Hk H2 IH]; intros d1 H1; cbn [fold_left]; [done|].
    apply IH. cbn [fst snd] in *. destruct (dget d1 k); by apply nkeys_dset.
  Qed.
  Lemma nkeys_map (g : mono * Qc -> Qc) d : nkeys d -> nkeys (map (fun kv => (kv.1, g kv)) d).
  Proof. induction 1 as [|kv d Hk H IH]; constructor; done. Qed.
  Lemma nkeys_times d1 d2 d : nkeys d1 -> nkeys d2 -> dict_times true d1 d2 = Ok d -> nkeys d.
  Proof.
    intros H1 H2. unfold dict_times.
    assert (forall r, nkeys r ->
      fold_left (fun r kv1 => fold_left (times_step true kv1.1 kv1.2) d2 r) d1 (Ok r) = Ok d ->
      nkeys d) as H; [|apply H; constructor].
    induction H1 as [|[k1 v1] d1 Hk1 H1 IH]; intros r Hr; cbn [fold_left].
    { by intros [= <-]. }
    cbn in Hk1. cbn [fst snd].
    assert (forall r, nkeys r -> forall r', fold_left (times_step true k1 v1) d2 (Ok r) = Ok r' ->
      nkeys r') as Hin.
    { clear -Hk1 H2. induction H2 as [|[k2 v2] d2 Hk2 H2 IH]; intros r Hr r'; cbn [fold_left].
      { by intros [= <-]. }
      cbn in Hk2. unfold times_step at 2. cbn [rbind fst snd].
      destruct (_ && true) eqn:E.
      - by rewrite times_inner_err.
      - apply IH. apply nkeys_dset; [done|]. rewrite (psort_perm str_cmp _). by apply Forall_app. }
    destruct (fold_left (times_step true k1 v1) d2 (Ok r)) as [r'|] eqn:E.
    - apply IH. by eapply Hin.
    - by rewrite times_outer_err.
  Qed.

  Lemma walk_nkeys n f d : (forall x t, (x, t) ∈ syms f -> Q x) -> walk (math_walker true) n f = Ok d -> nkeys d.
  Proof.
    revert f d. induction n as [|n IH]; intros f d Hq Hw; [done|]. cbn [walk] in Hw.
    assert (HL : forall l ds, (forall x t, (x, t) ∈ concat (map syms l) -> Q x) ->
      rmapM (walk (math_walker true) n) l = Ok ds -> Forall nkeys ds).
    { intros l ds Hq' H. apply rmapM_Forall2 in H. induction H as [|f' d' l ds H0 H IHl]; constructor.
      - eapply IH; [|done]. intros x t Hx. eapply Hq'. cbn. apply elem_of_app. by left.
      - apply IHl. intros x t Hx. eapply Hq'. cbn. apply elem_of_app. by right. }
    assert (HM : forall a b r, (forall x t, (x, t) ∈ syms a ++ syms b -> Q x) ->
      math_minus (walk (math_walker true) n) a b = Ok r -> nkeys r).
    { intros a b r Hq'. unfold math_minus. destruct (walk _ n a) as [da|] eqn:Ea; [|done].
      destruct (walk _ n b) as [db|] eqn:Eb; [|done]. intros [= <-].
      apply nkeys_plus; [eapply IH; [|done]; intros; eapply Hq', elem_of_app; by left|].
      apply (nkeys_map (fun kv => - kv.2)%Qc). eapply IH; [|done]; intros; eapply Hq', elem_of_app; by right. }
    assert (HR : forall a b r, (forall x t, (x, t) ∈ syms a ++ syms b -> Q x) ->
      math_lte (walk (math_walker true) n) a b = Ok r -> nkeys r).
    { intros a b r Hq'. unfold math_lte. destruct (math_minus _ a b) as [m|] eqn:Em; [|done]. cbn [rbind].
      destruct (first_nonzero _ _) as [c|]; intros [= <-].
      - apply (nkeys_map (fun kv => kv.2 / c)%Qc). eapply HM; [exact Hq'|exact Em].
      - repeat constructor. }
    destruct f as [x t|b|q|z|l|l|a|a b|a b|c a b|l|a b|l|a b|a b|a b|a b|a|a];
      cbn [dispatch math_walker w_and w_or w_plus w_minus w_times w_not w_ite w_pow w_lte w_lt
           w_equals w_symbol w_const w_cannot] in Hw; try done.
    - destruct t; try done. injection Hw as <-. repeat constructor. cbn. eapply Hq. by left.
    - injection Hw as <-. repeat constructor.
    - destruct (walk _ n a) as [da|] eqn:Ea; [|done]. injection Hw as <-.
      apply (nkeys_map (fun kv => - kv.2)%Qc). apply (IH a); [exact Hq|exact Ea].
    - eapply IH; [|done]. intros x t. rewrite Walk_Proofs.syms_imp_expand. apply Hq.
    - destruct (rmapM _ l) as [ds|] eqn:E; [|done]. cbn [rbind] in Hw.
      eapply (reduce_inv nkeys); [exact Hw|eapply HL; [exact Hq|exact E]|]. intros x y w Hx Hy [= <-]. by apply nkeys_plus.
    - eapply HM; [exact Hq|exact Hw].
    - destruct (rmapM _ l) as [ds|] eqn:E; [|done]. cbn [rbind] in Hw.
      eapply (reduce_inv nkeys); [exact Hw|eapply HL; [exact Hq|exact E]|]. intros x y w Hx Hy. by apply nkeys_times.
    - unfold math_pow in Hw. destruct (const_val b) as [x|]; [|done]. destruct (int_of_qc x) as [z|]; [|done].
      destruct (z =? 1)%Z eqn:Ez; [|done]. cbn [negb andb] in Hw. apply Z.eqb_eq in Ez. subst.
      destruct (walk _ n a) as [da|] eqn:Ea; [|done]. cbn in Hw. injection Hw as <-. eapply IH; [|done].
      intros; eapply Hq. cbn. apply elem_of_app. by left.
    - eapply HR; [exact Hq|exact Hw].
    - eapply HR; [exact Hq|exact Hw].
  Qed.
End names.
