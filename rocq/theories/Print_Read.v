(** The printed text of a readable formula determines its value (C59). *)

From Verif Require Import Base Dict Smt Walk_Model Math_Model Math_Spec Poly_Proofs Linear_Proofs Arith_Proofs Lit_Tests
  Walk_Proofs Transform_Model Transform_Proofs Print_Model Print_Spec Print_Proofs.

Inductive sk : Type :=
| KBool (b : bool)
| KSym (x : string)
| KCmp (strict : bool) (ts : list (string * Qc)) (c : Qc)
| KNot (a : sk)
| KOp (conj : bool) (a : sk) (l : list sk)
| KIte (a b c : sk).

Section text.
  Context (fmt : Qc -> string) (exact : Qc -> Prop) (FF : float_format fmt exact).
  Local Notation num := (number_text fmt).

  Fixpoint ktext (t : sk) : list ascii :=
    match t with
    | KBool b => C (if b then "True" else "False")%string
    | KSym x => C x
    | KCmp s ts c => "("%char :: sum_text fmt ts ++ " "%char :: "<"%char :: (if s then [] else ["="%char]) ++ " "%char :: C (num c) ++ [")"%char]
    | KNot a => "~"%char :: ktext a
    | KOp j a l => "("%char :: ktext a ++ concat (map (fun b => " "%char :: (if j then "&" else "|")%char :: " "%char :: ktext b) l) ++ [")"%char]
    | KIte a b c => C "(if " ++ ktext a ++ C " then " ++ ktext b ++ C " else " ++ ktext c ++ [")"%char]
    end.
  Definition ktail (j : bool) (l : list sk) : list ascii :=
    concat (map (fun b => " "%char :: (if j then "&" else "|")%char :: " "%char :: ktext b) l).

  Inductive kwf : sk -> Prop :=
  | kwf_bool b : kwf (KBool b)
  | kwf_sym x : ident x = true -> kwf (KSym x)
  | kwf_cmp s ts c : Forall (good_term exact) ts -> exact c -> kwf (KCmp s ts c)
  | kwf_not a : kwf a -> kwf (KNot a)
  | kwf_op j a l : kwf a -> l <> [] -> Forall kwf l -> kwf (KOp j a l)
  | kwf_ite a b c : kwf a -> kwf b -> kwf c -> kwf (KIte a b c).

  (** ** Comparisons *)
  Definition wordc (c : ascii) : bool := negb (bool_decide (c ∈ [" "; "("; ")"; "&"; "|"; "~"]%char)).
  Definition starc (c : ascii) : bool := negb (bool_decide (c = "*"%char)).
  Definition linec (c : ascii) : bool := negb (bool_decide (c ∈ ["("; ")"; "&"; "|"; "~"]%char)).

  Lemma ident_wordc c : ident_char c = true -> wordc c = true.
  Proof. by destruct c as [[] [] [] [] [] [] [] []]. Qed.
  Lemma ident_starc c : ident_char c = true -> starc c = true.
  Proof. by destruct c as [[] [] [] [] [] [] [] []]. Qed.
  Lemma float_wordc c : float_char c = true -> wordc c = true.
  Proof. by destruct c as [[] [] [] [] [] [] [] []]. Qed.
  Lemma float_starc c : float_char c = true -> starc c = true.
  Proof. by destruct c as [[] [] [] [] [] [] [] []]. Qed.
  Lemma digit_float c : digit_char c = true -> float_char c = true.
  Proof. by unfold float_char; intros ->. Qed.
  Lemma word_line c : wordc c = true -> linec c = true.
  Proof. by destruct c as [[] [] [] [] [] [] [] []]. Qed.

  Lemma num_float q : exact q -> forallb float_char (C (num q)) = true.
  Proof.
    intros Hx. assert (forall q, exact q -> (0 < q)%Qc -> forallb float_char (C (num q)) = true) as Hp.
    { intros r Xr Hr. destruct (num_text_pos _ _ FF r Xr Hr) as (c & s & -> & Hc & Hs & _). cbn.
      by rewrite (digit_float c Hc). }
    destruct (opp_cases q) as [->|[H|(p & -> & H)]]; [done|by apply Hp|].
    destruct (num_text_neg _ _ FF p Hx H) as [X ->]. cbn [C forallb]. by rewrite Hp.
  Qed.

  Lemma mag_cases t : good_term exact t ->
    (t.2 = 1%Qc /\ mag fmt t = C t.1) \/
    (t.2 <> 1%Qc /\ exists c s, mag fmt t = (c :: s) ++ "*"%char :: C t.1 /\ digit_char c = true /\
      forallb float_char (c :: s) = true /\ C (num (if neg t.2 then - t.2 else t.2)%Qc) = c :: s).
  Proof.
    intros Ht. unfold mag. destruct (qeq t.2 1) eqn:E.
    - left. by apply qeq_spec in E.
    - right. apply qeq_false in E. split; [done|]. destruct (term_num _ _ FF t Ht E) as (c & s & En & Hc & Hs & _).
      exists c, s. rewrite En. split_and!; try done. cbn. rewrite Hs, andb_true_r. by apply digit_float.
  Qed.

  Lemma mag_word t : good_term exact t -> forallb wordc (mag fmt t) = true.
  Proof.
    intros Ht. pose proof (forallb_impl _ _ _ ident_wordc (ident_chars _ (proj1 Ht))) as Hi.
    destruct (mag_cases t Ht) as [[_ ->]|(_ & c & s & -> & _ & Hf & _)]; [done|].
    rewrite forallb_app. rewrite (forallb_impl _ _ _ float_wordc Hf). cbn. done.
  Qed.

  Lemma mag_inj t u : good_term exact t -> good_term exact u -> neg t.2 = neg u.2 -> mag fmt t = mag fmt u -> t = u.
  Proof.
    intros Ht Hu Hn He. destruct t as [x v], u as [y w]. cbn [fst snd] in *.
    destruct (mag_cases _ Ht) as [[E1 M1]|(E1 & c & s & M1 & D1 & F1 & N1)],
      (mag_cases _ Hu) as [[E2 M2]|(E2 & c' & s' & M2 & D2 & F2 & N2)]; cbn [fst snd] in *; rewrite M1, M2 in He.
    - apply C_inj in He. by subst.
    - exfalso. pose proof (ident_chars _ (proj1 Ht)) as Hi. cbn [fst] in Hi. rewrite He in Hi.
      rewrite forallb_app in Hi. apply andb_true_iff in Hi as [_ Hi]. done.
    - exfalso. pose proof (ident_chars _ (proj1 Hu)) as Hi. cbn [fst] in Hi. rewrite <- He in Hi.
      rewrite forallb_app in Hi. apply andb_true_iff in Hi as [_ Hi]. done.
    - apply (cut starc) in He as (Hs & _ & Hx); [|exact (forallb_impl _ _ _ float_starc F1)|exact (forallb_impl _ _ _ float_starc F2)|done|done].
      apply C_inj in Hx as ->. f_equal.
      pose proof (proj2 (proj2 Ht) E1) as X1. pose proof (proj2 (proj2 Hu) E2) as X2. cbn [snd] in X1, X2.
      rewrite <- N1, <- N2 in Hs. apply C_inj in Hs. rewrite <- Hn in Hs.
      destruct (neg v) eqn:Ev.
      + destruct (neg_true _ Ev) as (p & -> & Hp). symmetry in Hn. destruct (neg_true _ Hn) as (p' & -> & Hp').
        replace (- - p)%Qc with p in Hs by ring. replace (- - p')%Qc with p' in Hs by ring.
        f_equal. destruct (num_text_neg _ _ FF p X1 Hp) as [? _]. destruct (num_text_neg _ _ FF p' X2 Hp') as [? _].
        by apply (num_inj _ _ FF).
      + by apply (num_inj _ _ FF).
  Qed.

  Lemma first_word t : good_term exact t -> forallb wordc (first_text fmt t) = true.
  Proof. intros Ht. unfold first_text. destruct (neg t.2); cbn; by rewrite mag_word. Qed.

  Lemma mag_not_minus t r : good_term exact t -> mag fmt t <> "-"%char :: r.
  Proof.
    intros Ht He. destruct (mag_cases t Ht) as [[_ E]|(_ & c & s & E & Hc & _)]; rewrite E in He.
    - destruct (ident_cons _ (proj1 Ht)) as (c & s & Ex & _ & Hi & _). rewrite Ex in He, Hi. cbn in He, Hi.
      injection He as -> _. by apply andb_true_iff in Hi as [? _].
    - cbn in He. by injection He as -> _.
  Qed.

  Lemma first_inj t u : good_term exact t -> good_term exact u -> first_text fmt t = first_text fmt u -> t = u.
  Proof.
    intros Ht Hu. unfold first_text. destruct (neg t.2) eqn:E1, (neg u.2) eqn:E2; intros He.
    - injection He as He. apply mag_inj; try done. congruence.
    - symmetry in He. by apply mag_not_minus in He.
    - by apply mag_not_minus in He.
    - apply mag_inj; try done. congruence.
  Qed.

  Lemma first_not_zero t : good_term exact t -> first_text fmt t <> ["0"%char].
  Proof.
    intros Ht. unfold first_text. destruct (neg t.2); [done|].
    destruct (mag_cases t Ht) as [[_ ->]|(_ & c & s & -> & Hc & _)].
    - destruct (ident_cons _ (proj1 Ht)) as (c & s & -> & Hd & _). by intros [= -> _].
    - intros He. cbn in He. injection He as -> He. by apply app_eq_nil in He as [_ ?].
  Qed.

  (** The first word of a sum and what follows it. *)
  Definition head_word (ts : list (string * Qc)) : list ascii := match ts with [] => ["0"%char] | t :: _ => first_text fmt t end.
  Lemma sum_split ts : sum_text fmt ts = head_word ts ++ concat (map (rest_text fmt) (List.tl ts)).
  Proof. destruct ts as [|t ts]; [done|]. done. Qed.
  Lemma head_word_word ts : Forall (good_term exact) ts -> forallb wordc (head_word ts) = true.
  Proof. destruct 1; [done|]. by apply first_word. Qed.

  Lemma cut_space l1 r1 l2 r2 : forallb wordc l1 = true -> forallb wordc l2 = true ->
    l1 ++ " "%char :: r1 = l2 ++ " "%char :: r2 -> l1 = l2 /\ r1 = r2.
  Proof. intros H1 H2 He. by destruct (cut wordc l1 " " r1 l2 " " r2 H1 H2 eq_refl eq_refl He) as (? & _ & ?). Qed.

  Definition end_text (s : bool) (c : Qc) : list ascii :=
    " "%char :: "<"%char :: (if s then [] else ["="%char]) ++ " "%char :: C (num c) ++ [")"%char].

  Lemma end_space s c : exists r, end_text s c = " "%char :: r.
  Proof. eexists. done. Qed.

  Lemma rest_space l s c r : exists r', concat (map (rest_text fmt) l) ++ end_text s c ++ r = " "%char :: r'.
  Proof. destruct l; eexists; done. Qed.

  Lemma end_inj s c s' c' r r' : exact c -> exact c' -> end_text s c ++ r = end_text s' c' ++ r' -> s = s' /\ c = c' /\ r = r'.
  Proof.
    intros X X'. unfold end_text. rewrite <- !app_comm_cons, <- !app_assoc, <- !app_comm_cons, <- !app_assoc. cbn [app]. intros [= He].
    assert (forall c c' r r', exact c -> exact c' -> C (num c) ++ ")"%char :: r = C (num c') ++ ")"%char :: r' -> c = c' /\ r = r') as HN.
    { clear - FF. intros c c' r r' X X' He. apply (cut wordc) in He as (H1 & _ & H2); try done.
      - split; [|done]. apply (num_inj _ _ FF); try done. by apply C_inj.
      - by apply (forallb_impl _ _ _ float_wordc), num_float.
      - by apply (forallb_impl _ _ _ float_wordc), num_float. }
    destruct s, s'; cbn [app] in He; try done.
    - injection He as He. destruct (HN _ _ _ _ X X' He) as [-> ->]. done.
    - injection He as He. destruct (HN _ _ _ _ X X' He) as [-> ->]. done.
  Qed.

  Lemma end_head s c : exists r, end_text s c = " "%char :: "<"%char :: r.
  Proof. eexists. done. Qed.
  Local Opaque end_text.
  Lemma rest_unfold t : rest_text fmt t = " "%char :: (if neg t.2 then "-" else "+")%char :: " "%char :: mag fmt t.
  Proof. done. Qed.
  Lemma rest_inj l l' s c s' c' r r' : Forall (good_term exact) l -> Forall (good_term exact) l' -> exact c -> exact c' ->
    concat (map (rest_text fmt) l) ++ end_text s c ++ r = concat (map (rest_text fmt) l') ++ end_text s' c' ++ r' ->
    l = l' /\ s = s' /\ c = c' /\ r = r'.
  Proof.
    intros H H' X X'. revert l' H'. induction H as [|t l Ht Hl IH]; intros l' H' He.
    - destruct H' as [|u l' Hu Hl']; [split; [done|]; by apply end_inj|].
      exfalso. destruct (end_head s c) as [q1 Q1]. rewrite Q1 in He. cbn in He. injection He as He _. by destruct (neg u.2).
    - destruct H' as [|u l' Hu Hl'].
      { exfalso. destruct (end_head s' c') as [q1 Q1]. rewrite Q1 in He. cbn in He. injection He as He _. by destruct (neg t.2). }
      cbn [map concat] in He. rewrite <- !app_assoc in He. rewrite (rest_unfold t), (rest_unfold u) in He.
      cbn [app] in He. injection He as Hs He.
      destruct (rest_space l s c r) as [r1 E1]. destruct (rest_space l' s' c' r') as [r2 E2].
      pose proof He as He'. rewrite E1, E2 in He'. apply cut_space in He' as [Hm Hr]; [|by apply mag_word|by apply mag_word].
      rewrite Hm in He. apply app_inv_head in He.
      assert (t = u) as -> by (apply mag_inj; try done; by destruct (neg t.2), (neg u.2)).
      destruct (IH l' Hl' He) as (-> & ? & ? & ?). done.
  Qed.

  Local Transparent end_text.
  Lemma cmp_text s ts c : ktext (KCmp s ts c) = "("%char :: head_word ts ++ concat (map (rest_text fmt) (List.tl ts)) ++ end_text s c.
  Proof. cbn [ktext]. rewrite sum_split, <- app_assoc. done. Qed.

  Local Opaque end_text.
  Lemma cmp_inj s ts c s' ts' c' r r' : Forall (good_term exact) ts -> Forall (good_term exact) ts' -> exact c -> exact c' ->
    ktext (KCmp s ts c) ++ r = ktext (KCmp s' ts' c') ++ r' -> KCmp s ts c = KCmp s' ts' c' /\ r = r'.
  Proof.
    intros H H' X X'. rewrite !cmp_text. cbn [app]. rewrite <- !app_assoc. intros [= He].
    destruct (rest_space (List.tl ts) s c r) as [r1 E1]. destruct (rest_space (List.tl ts') s' c' r') as [r2 E2].
    pose proof He as He'. rewrite E1, E2 in He'.
    apply cut_space in He' as [Hw Hr]; [|by apply head_word_word|by apply head_word_word].
    rewrite Hw in He. apply app_inv_head in He. clear E1 E2 Hr.
    destruct H as [|t ts Ht Hts], H' as [|u ts' Hu Hts']; cbn [head_word List.tl] in *.
    - destruct (rest_inj [] [] s c s' c' r r') as (_ & -> & -> & ->); by try constructor.
    - symmetry in Hw. by apply first_not_zero in Hw.
    - by apply first_not_zero in Hw.
    - apply first_inj in Hw as ->; try done.
      destruct (rest_inj ts ts' s c s' c' r r') as (-> & -> & -> & ->); by try constructor.
  Qed.

  Local Transparent end_text.
  (** The text of a comparison up to its closing parenthesis contains no connective. *)
  Lemma cmp_line s ts c : Forall (good_term exact) ts -> exact c ->
    exists body, ktext (KCmp s ts c) = "("%char :: body ++ [")"%char] /\ forallb linec body = true.
  Proof.
    intros H X. exists (sum_text fmt ts ++ " "%char :: "<"%char :: (if s then [] else ["="%char]) ++ " "%char :: C (num c)).
    split; [cbn [ktext]; rewrite <- app_assoc, <- !app_comm_cons, <- !app_assoc; done|].
    assert (forallb linec (C (num c)) = true) as Hn.
    { apply (forallb_impl _ _ _ word_line), (forallb_impl _ _ _ float_wordc). by apply num_float. }
    assert (forallb linec (sum_text fmt ts) = true) as Hs.
    { rewrite sum_split, forallb_app. rewrite (forallb_impl _ _ _ word_line (head_word_word ts H)). cbn [andb].
      assert (Forall (good_term exact) (List.tl ts)) as Ht by (destruct H; [constructor|done]).
      induction Ht as [|t l Ht Hl IH]; [done|]. cbn [map concat]. rewrite forallb_app, IH, andb_true_r.
      unfold rest_text. cbn [forallb]. rewrite (forallb_impl _ _ _ word_line (mag_word t Ht)). by destruct (neg t.2). }
    rewrite forallb_app, Hs. cbn [forallb andb]. rewrite forallb_app. cbn [forallb]. rewrite Hn. by destruct s.
  Qed.
  Local Opaque end_text.
  Lemma cmp_not_if s ts c r r' : Forall (good_term exact) ts ->
    ktext (KCmp s ts c) ++ r <> C "(if " ++ r'.
  Proof.
    intros H. rewrite cmp_text. cbn [C app]. rewrite <- !app_assoc. intros [= He].
    destruct (rest_space (List.tl ts) s c r) as [r1 E1]. rewrite E1 in He.
    change ("i" :: "f" :: " " :: r')%char with (C "if" ++ " "%char :: r') in He.
    apply cut_space in He as [Hw _]; [|by apply head_word_word|done].
    destruct H as [|t ts Ht Hts]; [done|]. cbn [head_word] in Hw. unfold first_text in Hw.
    destruct (neg t.2); [done|]. destruct (mag_cases t Ht) as [[_ E]|(_ & d & s' & E & Hd & _)]; rewrite E in Hw.
    - apply C_inj in Hw. destruct (ident_cons _ (proj1 Ht)) as (d & s' & _ & _ & _ & Hk). rewrite Hw in Hk.
      apply Hk. apply elem_of_list_In. cbn. tauto.
    - cbn in Hw. by injection Hw as -> _.
  Qed.
  Local Transparent end_text.

  (** ** Reading a whole formula *)

  Definition first_ok (l : list ascii) : Prop := exists c r, l = c :: r /\ (ident_char c = true \/ c = "("%char \/ c = "~"%char).

  Lemma ident_head x r : ident x = true -> exists c s, C x ++ r = c :: s /\ ident_char c = true.
  Proof.
    intros H. destruct (ident_cons x H) as (c & s & -> & _ & Hi & _). cbn in *. apply andb_true_iff in Hi as [? _]. eauto.
  Qed.

  Lemma bool_ident (b : bool) : forallb ident_char (C (if b then "True" else "False")%string) = true.
  Proof. by destruct b. Qed.

  (** A word (a variable or a truth value) and its text. *)
  Inductive kword : sk -> list ascii -> Prop :=
  | kw_bool b : kword (KBool b) (C (if b then "True" else "False")%string)
  | kw_sym x : ident x = true -> kword (KSym x) (C x).
  Lemma kword_ident t w : kword t w -> forallb ident_char w = true /\ w <> [] /\ ktext t = w /\ w <> C "if".
  Proof.
    destruct 1 as [b|x Hx]; [by destruct b|]. split_and!; [by apply ident_chars| |done|].
    - destruct (ident_cons x Hx) as (c & s & -> & _). done.
    - intros He. apply C_inj in He as ->. done.
  Qed.
  Lemma kword_inj t u w : kword t w -> kword u w -> t = u.
  Proof.
    intros H1 H2. inversion H1 as [b Hb Hw|x Hx Hb Hw]; subst; inversion H2 as [b' Hb' Hw'|y Hy Hb' Hw']; subst.
    - by destruct b, b'.
    - exfalso. apply C_inj in Hw'. subst. by destruct b.
    - exfalso. apply C_inj in Hw'. subst. by destruct b'.
    - apply C_inj in Hw' as ->. done.
  Qed.

  (** Every text is a word, or starts with a tilde or a parenthesis. *)
  Lemma kwf_cases t : kwf t -> kword t (ktext t) \/ (exists a, t = KNot a /\ kwf a) \/
    (exists r, ktext t = "("%char :: r /\ ~ exists w, kword t w).
  Proof.
    destruct 1 as [b|x Hx|s ts c Ht Hc|a Ha|j a l Ha Hn Hl|a b c Ha Hb Hc].
    - left. constructor.
    - left. by constructor.
    - right. right. eexists. split; [done|]. intros [w Hw]. inversion Hw.
    - right. left. eauto.
    - right. right. eexists. split; [done|]. intros [w Hw]. inversion Hw.
    - right. right. eexists. split; [done|]. intros [w Hw]. inversion Hw.
  Qed.

  Lemma kword_head t w r : kword t w -> exists c s, w ++ r = c :: s /\ ident_char c = true.
  Proof.
    intros H. destruct (kword_ident _ _ H) as (Hi & Hn & _). destruct w as [|c w]; [done|]. cbn in Hi.
    apply andb_true_iff in Hi as [? _]. eexists _, _. split; [done|done].
  Qed.

  (** A text followed by " &" or " |" is not the beginning of a comparison, nor of a choice. *)
  Lemma op_not_cmp t (j : bool) r s ts c r' : kwf t -> Forall (good_term exact) ts -> exact c ->
    ktext t ++ " "%char :: (if j then "&" else "|")%char :: r <> List.tl (ktext (KCmp s ts c)) ++ r'.
  Proof.
    intros Ht H X He. destruct (cmp_line s ts c H X) as (body & E & Hb). rewrite E in He. cbn [List.tl] in He.
    rewrite <- app_assoc in He. cbn [app] in He.
    destruct (kwf_cases t Ht) as [Hw|[(a & -> & Ha)|(r1 & E1 & _)]].
    - destruct (kword_ident _ _ Hw) as (Hi & _).
      change (" "%char :: (if j then "&" else "|")%char :: r) with ([" "%char] ++ (if j then "&" else "|")%char :: r) in He.
      rewrite app_assoc in He.
      assert (forallb linec (ktext t ++ [" "%char]) = true) as Hl.
      { rewrite forallb_app. rewrite (forallb_impl _ _ _ (fun c H => word_line c (ident_wordc c H)) Hi). done. }
      apply (cut linec) in He as (_ & Hc & _); [|done|done|by destruct j|done]. by destruct j.
    - cbn in He. destruct body as [|b body]; cbn in He; [done|]. injection He as <- _. done.
    - rewrite E1 in He. cbn in He. destruct body as [|b body]; cbn in He; [done|]. injection He as <- _. done.
  Qed.
  Lemma op_not_if t (j : bool) r r' : kwf t ->
    ktext t ++ " "%char :: (if j then "&" else "|")%char :: r <> C "if " ++ r'.
  Proof.
    intros Ht He. destruct (kwf_cases t Ht) as [Hw|[(a & -> & Ha)|(r1 & E1 & _)]].
    - destruct (kword_ident _ _ Hw) as (Hi & _ & _ & Hif).
      change (C "if " ++ r') with (C "if" ++ " "%char :: r') in He. apply cut_space in He as [? _]; [done| |done].
      by apply (forallb_impl _ _ _ ident_wordc).
    - done.
    - rewrite E1 in He. done.
  Qed.

  Lemma ktail_head j l r : l <> [] -> exists r', ktail j l ++ r = " "%char :: (if j then "&" else "|")%char :: r'.
  Proof. destruct l as [|t l]; [done|]. intros _. eexists. cbn. done. Qed.

  Lemma op_text j a l : ktext (KOp j a l) = "("%char :: ktext a ++ ktail j l ++ [")"%char].
  Proof. done. Qed.
  Lemma ite_text a b c : ktext (KIte a b c) = C "(if " ++ ktext a ++ C " then " ++ ktext b ++ C " else " ++ ktext c ++ [")"%char].
  Proof. done. Qed.

  Lemma ktext_inj n : forall t1 t2 r1 r2, length (ktext t1) <= n -> kwf t1 -> kwf t2 -> delim r1 -> delim r2 ->
    ktext t1 ++ r1 = ktext t2 ++ r2 -> t1 = t2 /\ r1 = r2.
  Proof.
    induction n as [|n IH]; intros t1 t2 r1 r2 Hlen W1 W2 D1 D2 He.
    { exfalso. destruct (kwf_cases t1 W1) as [Hw|[(a & -> & _)|(r & E & _)]].
      - destruct (kword_ident _ _ Hw) as (_ & Hn & _). destruct (ktext t1); [done|]. cbn in Hlen. lia.
      - cbn in Hlen. lia.
      - rewrite E in Hlen. cbn in Hlen. lia. }
    destruct (kwf_cases t1 W1) as [Hw1|[(a1 & -> & Wa1)|(q1 & E1 & N1)]],
      (kwf_cases t2 W2) as [Hw2|[(a2 & -> & Wa2)|(q2 & E2 & N2)]].
    - destruct (kword_ident _ _ Hw1) as (Hi1 & _). destruct (kword_ident _ _ Hw2) as (Hi2 & _).
      apply cut_ident in He as [Hk ->]; try done. split; [|done]. rewrite Hk in Hw1. by eapply kword_inj.
    - exfalso. destruct (kword_head _ _ r1 Hw1) as (c & s & Hc & Hi). rewrite Hc in He. cbn in He. by injection He as -> _.
    - exfalso. destruct (kword_head _ _ r1 Hw1) as (c & s & Hc & Hi). rewrite Hc, E2 in He. cbn in He. by injection He as -> _.
    - exfalso. destruct (kword_head _ _ r2 Hw2) as (c & s & Hc & Hi). rewrite Hc in He. cbn in He. by injection He as <- _.
    - cbn in He. injection He as He. cbn in Hlen. destruct (IH a1 a2 r1 r2) as [-> ->]; try done. lia.
    - exfalso. rewrite E2 in He. cbn in He. discriminate.
    - exfalso. destruct (kword_head _ _ r2 Hw2) as (c & s & Hc & Hi). rewrite Hc, E1 in He. cbn in He. by injection He as <- _.
    - exfalso. rewrite E1 in He. cbn in He. discriminate.
    -
      destruct W1 as [b|x Hx|s ts c Ht Hc|a Ha|j a l Ha Hn Hl|a b c Ha Hb Hc];
        [exfalso; apply N1; eexists; apply kw_bool|exfalso; apply N1; eexists; by apply kw_sym|..].
      + destruct W2 as [b'|x' Hx'|s' ts' c' Ht' Hc'|a' Ha'|j' a' l' Ha' Hn' Hl'|a' b' c' Ha' Hb' Hc'];
          [exfalso; apply N2; eexists; apply kw_bool|exfalso; apply N2; eexists; by apply kw_sym|..].
        * by apply cmp_inj.
        * done.
        * exfalso. destruct (ktail_head j' l' ([")"%char] ++ r2) Hn') as [q Eq]. rewrite op_text in He.
          cbn [app] in He. rewrite <- !app_assoc in He. rewrite Eq in He.
          eapply (op_not_cmp a' j' q s ts c r1); [done..|]. injection He as He. symmetry. exact He.
        * exfalso. rewrite ite_text, <- app_assoc in He. by apply cmp_not_if in He.
      + done.
      + rewrite op_text in He, Hlen. cbn [app length] in He, Hlen. rewrite <- !app_assoc in He. rewrite !app_length in Hlen. cbn [length] in Hlen.
        destruct (ktail_head j l ([")"%char] ++ r1) Hn) as [q Eq].
        destruct W2 as [b'|x' Hx'|s' ts' c' Ht' Hc'|a' Ha'|j' a' l' Ha' Hn' Hl'|a' b' c' Ha' Hb' Hc'];
          [exfalso; apply N2; eexists; apply kw_bool|exfalso; apply N2; eexists; by apply kw_sym|..].
        * exfalso. rewrite Eq in He. eapply (op_not_cmp a j q s' ts' c' r2); [done..|]. injection He as He. exact He.
        * done.
        * rewrite op_text in He. cbn [app] in He. rewrite <- !app_assoc in He. injection He as He.
          destruct (ktail_head j' l' ([")"%char] ++ r2) Hn') as [q' Eq'].
          assert (a = a' /\ ktail j l ++ [")"%char] ++ r1 = ktail j' l' ++ [")"%char] ++ r2) as [-> He'].
          { apply IH; try done; [lia|by rewrite Eq|by rewrite Eq']. }
          assert (j = j') as ->.
          { rewrite Eq, Eq' in He'. injection He' as Hj _. by destruct j, j'. }
          assert (l = l' /\ r1 = r2) as [-> ->]; [|done].
          clear Hn Hn' Eq Eq' q q' He N1 N2 q1 E1 q2 E2. assert (length (ktail j' l) <= n) as Hlen' by lia. clear Hlen.
          revert l' Hl' He' Hlen'. induction Hl as [|t l Ht Hl IHl]; intros l' Hl' He' Hlen'.
          { destruct Hl' as [|t' l' Ht' Hl']; cbn in He'; [by injection He'|done]. }
          destruct Hl' as [|t' l' Ht' Hl']; [cbn in He'; done|].
          unfold ktail in He', Hlen'. cbn [map concat] in He', Hlen'. fold (ktail j' l) in He', Hlen'. fold (ktail j' l') in He'.
          cbn [app length] in He', Hlen'. rewrite app_length in Hlen'. rewrite <- !app_assoc in He'. injection He' as He'.
          assert (forall l r, delim (ktail j' l ++ [")"%char] ++ r)) as Hdel by (intros [|? ?] ?; done).
          destruct (IH t t' (ktail j' l ++ [")"%char] ++ r1) (ktail j' l' ++ [")"%char] ++ r2)) as [-> He'']; try done; [lia|].
          destruct (IHl l' Hl' He'') as [-> ->]; [lia|done].
        * exfalso. rewrite Eq, ite_text in He. cbn [app] in He.
          rewrite <- app_assoc in He. cbn [C app] in He. injection He as He. by apply (op_not_if a j q) in He.
      + rewrite ite_text in He, Hlen. rewrite !app_length in Hlen. cbn [C length] in Hlen. rewrite <- !app_assoc in He.
        destruct W2 as [b'|x' Hx'|s' ts' c' Ht' Hc'|a' Ha'|j' a' l' Ha' Hn' Hl'|a' b' c' Ha' Hb' Hc'];
          [exfalso; apply N2; eexists; apply kw_bool|exfalso; apply N2; eexists; by apply kw_sym|..].
        * exfalso. symmetry in He. by apply cmp_not_if in He.
        * done.
        * exfalso. rewrite op_text in He. cbn [C app] in He. rewrite <- !app_assoc in He.
          destruct (ktail_head j' l' ([")"%char] ++ r2) Hn') as [q' Eq']. rewrite Eq' in He. injection He as He.
          symmetry in He. by apply (op_not_if a' j' q') in He.
        * rewrite ite_text, <- !app_assoc in He. apply app_inv_head in He.
          apply (IH a a') in He as [-> He1]; [|lia|done|done|done|done]. apply app_inv_head in He1.
          apply (IH b b') in He1 as [-> He2]; [|lia|done|done|done|done]. apply app_inv_head in He2.
          apply (IH c c') in He2 as [-> He3]; [|lia|done|done|done|done]. apply app_inv_head in He3. done.
  Qed.
End text.

(** * The value of a text *)

Fixpoint kval (e : env) (t : sk) : bool :=
  match t with
  | KBool b => b
  | KSym x => eb e x
  | KCmp s ts c => if s then qlt (tsum e ts) c else qle (tsum e ts) c
  | KNot a => negb (kval e a)
  | KOp j a l => if j then kval e a && forallb (kval e) l else kval e a || existsb (kval e) l
  | KIte a b c => if kval e a then kval e b else kval e c
  end.

Section print.
  Context (fmt : Qc -> string) (exact : Qc -> Prop) (FF : float_format fmt exact).
  Local Notation num := (number_text fmt).
  Local Notation W := (print_walker fmt (comparison_text fmt)).

  Lemma comparison_reads (s : bool) a b : readable_test exact a b ->
    exists w ts c, comparison_text fmt (if s then "<" else "<=")%string (LeN a b) = Ok w /\
      C w = ktext fmt (KCmp s ts c) /\ kwf exact (KCmp s ts c) /\
      forall e x y, eval e a = Some (VN x) -> eval e b = Some (VN y) ->
        (if s then qlt (tsum e ts) c else qle (tsum e ts) c) = (if s then qlt x y else qle x y).
  Proof.
    intros (La & Lb & Hid & Hex).
    destruct (li_from_smt_ok (LeN a b) a b) as [d Hd]; [constructor|done|done|].
    pose proof (li_linear _ _ Hd) as Hlin.
    assert (all_nonzero d) as Hnz by (intros k v Hin; by destruct (Hlin k v Hin)).
    assert (dwf d /\ exists q, (0 < q)%Qc /\ forall e x y, eval e a = Some (VN x) -> eval e b = Some (VN y) ->
      poly_val e d = (q * (x - y))%Qc) as (Hwf & q & Hq & Hv).
    { revert Hd. unfold li_from_smt, math_walk. destruct (walk _ _ _) as [d'|] eqn:E; [|done]. intros [= <-].
      destruct (walk_compares _ _ _ _ _ (cmp_le a b) E (linear_expr_real _ La) (linear_expr_real _ Lb)) as (Cd & q & Hq & Hv).
      split; [apply dwf_lfilter; apply Cd|]. exists q. split; [done|]. intros e x y Hx Hy.
      unfold li_make. rewrite pv_filter, (Hv e x y Hx Hy). cbn [negs]. ring. }
    assert (forall k v, (k, v) ∈ d -> forall x, x ∈ k -> ident x = true) as Hn.
    { revert Hd. unfold li_from_smt, math_walk. destruct (walk _ _ _) as [d'|] eqn:E; [|done]. intros [= <-].
      apply (walk_nkeys (fun x => ident x = true)) in E; [|exact Hid].
      intros k v Hin x Hx. apply elem_of_list_In, filter_In in Hin as [Hin _]. unfold nkeys in E. rewrite Forall_forall in E.
      apply elem_of_list_In in Hin. specialize (E _ Hin). cbn in E. rewrite Forall_forall in E. by apply E. }
    destruct (li_normalize_scaled d Hnz) as (m & Hm & Hsc).
    set (d' := li_normalize d) in *.
    assert (dwf d') as Hwf' by (rewrite Hsc; by apply scaled_dwf).
    assert (forall k v, (k, v) ∈ d' -> length k <= 1 /\ v <> 0%Qc /\ forall x, x ∈ k -> ident x = true) as Hd'.
    { intros k v Hin. rewrite Hsc in Hin. unfold scaled in Hin. apply elem_of_list_In, in_map_iff in Hin as ([k' v'] & [= <- <-] & Hin).
      apply elem_of_list_In in Hin. destruct (Hlin _ _ Hin) as [? ?]. split_and!; [done| |by eapply Hn].
      intros Hz. apply Qcmult_integral in Hz as [Hz|Hz]; [|done]. by rewrite Hz in Hm. }
    assert (Forall (fun kv : mono * Qc => length kv.1 <= 1) d') as Hl'.
    { apply Forall_forall. intros [k v] Hin. by apply Hd' in Hin as (? & _). }
    destruct (li_shows fmt exact FF d' Hwf' Hl') as (l & r & sl & Htest & Hsl & Hsr & Htxt & Hgood & Hxb).
    { intros k v Hin. by apply Hd' in Hin as (_ & ?). }
    { intros g q' Hg. apply (Hex g q'). change (normalize_formula (LeN a b)) with (normalize_inequality (LeN a b)).
      unfold normalize_inequality. rewrite Hd. cbn [rbind]. exact Hg. }
    assert (comparison_text fmt (if s then "<" else "<=")%string (LeN a b) =
      Ok ("(" +:+ sl +:+ " " +:+ (if s then "<" else "<=") +:+ " " +:+ num (li_b d') +:+ ")")%string) as Et.
    { unfold comparison_text. rewrite Hd. cbn [rbind]. fold d'.
      destruct Htest as [-> | ->]; cbn [rbind]; rewrite Hsl, Hsr; done. }
    eexists _, (poly_terms d'), (li_b d'). split; [exact Et|]. split_and!.
    - rewrite !C_app, Htxt. cbn [ktext]. by destruct s.
    - by constructor.
    - intros e x y Hx Hy. pose proof (pv_const_split e d' Hwf') as Hs. rewrite poly_terms_val in Hs by done.
      assert (poly_val e d' = m * (q * (x - y)))%Qc as Hp by (rewrite Hsc, pv_scaled, (Hv _ _ _ Hx Hy); ring).
      rewrite Hp in Hs. unfold li_b, li_coefficient. set (u := tsum e (poly_terms d')) in *. set (k := default 0%Qc (dget d' CONST_KEY)) in *.
      assert (u = - k + (m * q) * (x - y))%Qc as -> by (rewrite <- Qcmult_assoc, Hs; ring).
      assert (0 < m * q)%Qc as Hpos by qcnra. generalize dependent (m * q)%Qc. intros p _ Hpos. clearbody k.
      destruct s; apply eq_iff_eq_true; rewrite ?qlt_spec, ?qle_spec; split; intros H; qcnra.
  Qed.

  (** Every readable formula is printed, and the text determines its value. *)
  Definition reads (n : nat) (f : fm) : Prop :=
    exists w t, walk W n f = Ok w /\ C w = ktext fmt t /\ kwf exact t /\ forall e, eval e f = Some (VB (kval e t)).

  Lemma readable_mkNot f : readable exact f -> readable exact (mkNot f).
  Proof. destruct 1; cbn [mkNot]; try done; apply rd_not; by constructor. Qed.

  Lemma mkNot_value e f x : eval e f = Some (VB x) -> eval e (mkNot f) = Some (VB (negb x)).
  Proof.
    intros H. destruct f; cbn [mkNot]; try (cbn [eval] in *; by rewrite H).
    cbn [eval] in H. destruct (eval e f) as [[y|y]|]; try done. cbn in H. injection H as <-. by rewrite negb_involutive.
  Qed.

  Lemma rmapM_reads n l : Forall (reads n) l -> exists ws ts, rmapM (walk W n) l = Ok ws /\
    Forall2 (fun w t => C w = ktext fmt t) ws ts /\ Forall (kwf exact) ts /\ length ts = length l /\
    forall e, mapM (fun g => vbool (eval e g)) l = Some (map (kval e) ts).
  Proof.
    induction 1 as [|f l (w & t & Hw & Ht & Hk & Hv) Hl IH]; [by exists [], []|].
    destruct IH as (ws & ts & Hws & Hts & Hks & Hlen & Hvs). exists (w :: ws), (t :: ts).
    rewrite rmapM_cons, Hw, Hws. split_and!; [done|by constructor|by constructor|cbn; by rewrite Hlen|].
    intros e. cbn [mapM]. rewrite Hv. cbn [vbool mbind option_bind]. rewrite Hvs. done.
  Qed.

  Lemma join_text (j : bool) w ws t ts : C w = ktext fmt t -> Forall2 (fun w t => C w = ktext fmt t) ws ts ->
    C ("(" +:+ join (if j then " & " else " | ") (w :: ws) +:+ ")")%string = ktext fmt (KOp j t ts).
  Proof.
    intros Hw Hws. rewrite !C_app, op_text. cbn [C app]. f_equal. rewrite app_assoc. f_equal. unfold join, ktail.
    revert w t Hw. induction Hws as [|w' t' ws ts Hw' Hws IH]; intros w t Hw.
    - cbn. by rewrite app_nil_r.
    - change (String.concat (if j then " & " else " | ")%string (w :: w' :: ws)) with
        (w +:+ (if j then " & " else " | ") +:+ String.concat (if j then " & " else " | ") (w' :: ws))%string.
      rewrite !C_app, Hw, (IH w' t' Hw'). cbn [map concat]. f_equal. by destruct j.
  Qed.

  Lemma forallb_id_map {A} (g : A -> bool) l : forallb id (map g l) = forallb g l.
  Proof. induction l as [|x l IH]; [done|]. cbn. by rewrite IH. Qed.
  Lemma existsb_id_map {A} (g : A -> bool) l : existsb id (map g l) = existsb g l.
  Proof. induction l as [|x l IH]; [done|]. cbn. by rewrite IH. Qed.

  Lemma op_reads n (j : bool) l : 2 <= length l -> Forall (reads n) l ->
    exists w t, (let! l' := rmapM (walk W n) l in Ok ("(" +:+ join (if j then " & " else " | ") l' +:+ ")")%string) = Ok w /\
      C w = ktext fmt t /\ kwf exact t /\ forall e, eval e (if j then AndN l else OrN l) = Some (VB (kval e t)).
  Proof.
    intros Hlen Hl. destruct (rmapM_reads n l Hl) as (ws & ts & Hws & Hts & Hks & Hlen' & Hv).
    rewrite Hws. cbn [rbind]. destruct Hts as [|w t ws ts Hw Hts]; [cbn in Hlen'; lia|].
    eexists _, (KOp j t ts). split; [done|]. split; [by apply join_text|].
    inversion Hks; subst. split.
    - constructor; [done| |done]. intros ->. cbn in Hlen'. lia.
    - intros e. specialize (Hv e). destruct j; cbn [eval]; rewrite Hv; cbn [fmap option_fmap option_map map forallb existsb kval];
        by rewrite ?forallb_id_map, ?existsb_id_map.
  Qed.

  Lemma readable_reads n f : readable exact f -> msize f <= n -> reads n f.
  Proof.
    revert f. induction n as [|n IH]; intros f Hf Hn; [pose proof (msize_pos f); lia|].
    assert (HL : forall l, Forall (readable exact) l -> S (list_sum (map msize l)) <= S n -> Forall (reads n) l).
    { intros l Hl Hs. apply Forall_forall. intros x Hx. rewrite Forall_forall in Hl. apply IH; [by apply Hl|].
      pose proof (msize_in x l Hx). lia. }
    unfold reads. cbn [walk].
    destruct Hf as [b|x Hx|l H2 Hl|l H2 Hl|f Hf|f g Hf Hg|f g Hf Hg|c f g Hc Hf Hg|a b Ht|a b Ht];
      cbn [dispatch print_walker w_and w_or w_not w_ite w_lte w_lt w_symbol w_const constant_text]; cbn [msize] in Hn.
    - eexists _, (KBool b). split; [done|]. split; [done|]. split; [constructor|done].
    - eexists _, (KSym x). split; [done|]. split; [done|]. split; [by constructor|done].
    - exact (op_reads n true l H2 (HL l Hl Hn)).
    - exact (op_reads n false l H2 (HL l Hl Hn)).
    - destruct (IH f Hf) as (w & t & Hw & Hk & Hwf & Hv); [lia|]. rewrite Hw. cbn [rbind].
      eexists _, (KNot t). split; [done|]. split; [rewrite C_app, Hk; done|]. split; [by constructor|].
      intros e. cbn [eval]. rewrite Hv. done.
    - destruct (IH (imp_expand f g)) as (w & t & Hw & Hk & Hwf & Hv).
      { cbn [imp_expand mkOr]. constructor; [cbn; lia|]. repeat constructor; [by apply readable_mkNot|done]. }
      { pose proof (msize_imp f g) as Hm. cbn [msize] in Hm |- *. lia. }
      exists w, t. split_and!; try done. intros e. rewrite <- (Hv e).
      destruct (IH f Hf) as (_ & t1 & _ & _ & _ & V1); [lia|]. destruct (IH g Hg) as (_ & t2 & _ & _ & _ & V2); [lia|].
      unfold imp_expand. cbn [mkOr]. rewrite eval_or2, (mkNot_value e f _ (V1 e)), V2. cbn [eval]. rewrite V1, V2. cbn.
      by destruct (kval e t1).
    - assert (Forall (reads n) [ImpN f g; ImpN g f]) as Hl2.
      { repeat constructor; apply IH; try (by constructor); cbn [msize]; lia. }
      destruct (op_reads n true [ImpN f g; ImpN g f] ltac:(cbn; lia) Hl2) as (w & t & Hw & Hk & Hwf & Hv).
      exists w, t. split_and!; try done. intros e. rewrite <- Hv. cbn [eval mapM].
      destruct (vbool (eval e f)) as [x|] eqn:Ex, (vbool (eval e g)) as [y|] eqn:Ey; try done.
      cbn. by destruct x, y.
    - destruct (IH c Hc) as (w1 & t1 & Hw1 & Hk1 & Hwf1 & Hv1); [lia|].
      destruct (IH f Hf) as (w2 & t2 & Hw2 & Hk2 & Hwf2 & Hv2); [lia|].
      destruct (IH g Hg) as (w3 & t3 & Hw3 & Hk3 & Hwf3 & Hv3); [lia|].
      rewrite Hw1, Hw2, Hw3. cbn [rbind]. eexists _, (KIte t1 t2 t3). split; [done|].
      split; [rewrite !C_app, Hk1, Hk2, Hk3; done|]. split; [by constructor|].
      intros e. cbn [eval]. rewrite Hv1, Hv2, Hv3. cbn. by destruct (kval e t1).
    - destruct (comparison_reads false a b Ht) as (w & ts & c & Hw & Hk & Hwf & Hv).
      exists w, (KCmp false ts c). split_and!; try done. intros e.
      destruct (linear_value a e) as [x Hx]; [apply Ht|]. destruct (linear_value b e) as [y Hy]; [apply Ht|].
      cbn [eval]. rewrite Hx, Hy. cbn. by rewrite (Hv e x y Hx Hy).
    - destruct (comparison_reads true a b Ht) as (w & ts & c & Hw & Hk & Hwf & Hv).
      exists w, (KCmp true ts c). split_and!; try done. intros e.
      destruct (linear_value a e) as [x Hx]; [apply Ht|]. destruct (linear_value b e) as [y Hy]; [apply Ht|].
      cbn [eval]. rewrite Hx, Hy. cbn. by rewrite (Hv e x y Hx Hy).
  Qed.

  Lemma printed f : readable exact f -> exists s, pretty_print fmt f = Ok s.
  Proof.
    intros Hf. destruct (readable_reads (msize f) f Hf) as (w & t & Hw & _); [done|]. by exists w.
  Qed.
  Lemma print_faithful f g s : readable exact f -> readable exact g ->
    pretty_print fmt f = Ok s -> pretty_print fmt g = Ok s -> fequiv f g.
  Proof.
    intros Hf Hg Ef Eg. destruct (readable_reads (msize f) f Hf) as (w & t & Hw & Hk & Hwf & Hv); [done|].
    destruct (readable_reads (msize g) g Hg) as (w' & t' & Hw' & Hk' & Hwf' & Hv'); [done|].
    unfold pretty_print in Ef, Eg. rewrite Hw in Ef. rewrite Hw' in Eg. injection Ef as ->. injection Eg as ->.
    destruct (ktext_inj fmt exact FF (length (ktext fmt t)) t t' [] []) as [-> _]; try done.
    { by rewrite !app_nil_r, <- Hk, <- Hk'. }
    intros e. by rewrite Hv, Hv'.
  Qed.
End print.
