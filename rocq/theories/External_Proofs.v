(** Proofs about the engines around external solvers. *)

From Verif Require Import Base Dict Smt Domain_Model Domain_Spec Domain_Proofs Domain_Props Engine_Model External_Model External_Spec.

(** * Numbers *)

Lemma is_digit_spec c : is_digit c = true <-> digit c.
Proof.
  unfold digit. destruct c as [[] [] [] [] [] [] [] []]; vm_compute; split; intros H; try done.
  all: try (exfalso; repeat (apply elem_of_cons in H as [H|H]; [done|]); by apply elem_of_nil in H).
  all: repeat (first [apply elem_of_list_here|apply elem_of_list_further]).
Qed.
Lemma digits_sound s : forall a t, digits s = (a, t) -> s = a ++ t /\ Forall digit a.
Proof.
  induction s as [|c s IH]; intros a t H; cbn in H; [by injection H as <- <-|]. destruct (is_digit c) eqn:Hc.
  - destruct (digits s) as [a' t'] eqn:E. injection H as <- <-. destruct (IH _ _ eq_refl) as [-> HF]. split; [done|].
    constructor; [by apply is_digit_spec|done].
  - by injection H as <- <-.
Qed.
Definition stops (P : ascii -> Prop) (t : text) : Prop := match t with [] => True | c :: _ => ~ P c end.
Lemma digits_complete a t : Forall digit a -> stops digit t -> digits (a ++ t) = (a, t).
Proof.
  intros Ha Ht. induction Ha as [|c a Hc Ha IH]; cbn.
  - destruct t as [|c t]; [done|]. cbn. destruct (is_digit c) eqn:E; [|done]. by apply is_digit_spec in E.
  - apply is_digit_spec in Hc. by rewrite Hc, IH.
Qed.
Lemma maybe_sound c s a t : maybe c s = (a, t) -> s = a ++ t /\ a ∈ [[]; [c]].
Proof.
  unfold maybe. destruct s as [|x s]; [intros [= <- <-]; split; [done|by left]|]. destruct (decide (x = c)) as [->|Hn]; intros [= <- <-].
  - split; [done|]. right. by left.
  - split; [done|by left].
Qed.
Lemma maybe_complete c a t : a ∈ [[]; [c]] -> stops (fun x => x = c) t -> maybe c (a ++ t) = (a, t).
Proof.
  intros Ha Ht. apply elem_of_cons in Ha as [->|Ha]; [|apply elem_of_list_singleton in Ha as ->]; cbn.
  - destruct t as [|x t]; [done|]. cbn in *. by rewrite decide_False.
  - by rewrite decide_True.
Qed.
Lemma digits1_sound s a t : digits1 s = Some (a, t) -> s = a ++ t /\ Forall digit a /\ a <> [].
Proof.
  unfold digits1. destruct (digits s) as [b u] eqn:E. apply digits_sound in E as [-> HF]. destruct b; [done|]. by intros [= <- <-].
Qed.
Lemma digits1_complete a t : Forall digit a -> a <> [] -> stops digit t -> digits1 (a ++ t) = Some (a, t).
Proof. intros Ha Hn Ht. unfold digits1. rewrite digits_complete by done. by destruct a. Qed.

Lemma number_sound s a t : number s = Some (a, t) -> s = a ++ t /\ numeral a.
Proof.
  unfold number. destruct (maybe _ s) as [sg s1] eqn:E1. apply maybe_sound in E1 as [-> Hs]. destruct (digits1 s1) as [[i s2]|] eqn:E2; [|done].
  apply digits1_sound in E2 as (-> & Hi & Ni). destruct s2 as [|c s2]; [done|]. destruct (decide (c = _)) as [->|]; [|done].
  destruct (digits1 s2) as [[f s3]|] eqn:E3; [|done]. apply digits1_sound in E3 as (-> & Hf & Nf).
  destruct (maybe _ s3) as [ex s4] eqn:E4. apply maybe_sound in E4 as [-> Hex]. destruct (maybe _ s4) as [es s5] eqn:E5. apply maybe_sound in E5 as [-> Hes].
  destruct (digits s5) as [ed s6] eqn:E6. apply digits_sound in E6 as [-> Hed]. intros [= <- <-]. split.
  - by rewrite <- ?app_assoc; cbn; rewrite <- ?app_assoc.
  - exists sg, i, f, ex, es, ed. split_and!; done.
Qed.
Definition after (t : text) : Prop := match t with [] => False | c :: _ => c = " "%char \/ c = nl end.
Lemma not_digit c : is_digit c = false -> ~ digit c.
Proof. intros H D%is_digit_spec. congruence. Qed.
Lemma digit_not_sign c : digit c -> c <> "-"%char /\ c <> "E"%char /\ c <> "."%char /\ c <> " "%char /\ c <> nl.
Proof. intros D%is_digit_spec. split_and!; by intros ->. Qed.
Lemma number_complete a t : numeral a -> after t -> number (a ++ t) = Some (a, t).
Proof.
  intros (sg & i & f & ex & es & ed & -> & Hs & Ni & Hi & Nf & Hf & Hex & Hes & Hed) Ht.
  assert (stops digit t /\ stops (fun x => x = "-"%char) t /\ stops (fun x => x = "E"%char) t) as (S1 & S2 & S3).
  { destruct t as [|c t]; [done|]. cbn in *. destruct Ht as [->| ->]; split_and!; try done; by apply not_digit. }
  assert (exists f' ed', f ++ ex ++ es ++ ed = f' ++ ex ++ es ++ ed' /\ f' <> [] /\ Forall digit f' /\ Forall digit ed' /\ (ex = [] -> es = [] -> ed' = [])) as
    (f' & ed' & E & Nf' & Hf' & Hed' & Hn).
  { destruct (decide (ex = [] /\ es = [])) as [[-> ->]|Hne].
    - exists (f ++ ed), []. cbn. rewrite app_nil_r. split_and!; try done; [by destruct f|by apply Forall_app].
    - exists f, ed. split_and!; try done. intros -> ->. by destruct Hne. }
  rewrite E. clear E Nf Hf Hed f ed. rewrite <- !app_assoc. unfold number.
  rewrite maybe_complete; [|done|destruct i as [|c i]; [done|]; cbn; by apply Forall_inv, digit_not_sign in Hi as [? _]].
  rewrite digits1_complete; [|done|done|cbn; by apply not_digit]. cbn [app]. rewrite decide_True by done. rewrite <- ?app_assoc.
  assert (stops digit (es ++ ed' ++ t) \/ (es = [] /\ ex <> [])) as Hes'.
  { apply elem_of_cons in Hes as [->|Hes]; [|apply elem_of_list_singleton in Hes as ->; left; cbn; by apply not_digit].
    destruct (decide (ex = [])) as [->|]; [|by right]. left. by rewrite Hn. }
  assert (stops digit (ex ++ es ++ ed' ++ t)) as S4.
  { apply elem_of_cons in Hex as [->|Hex]; [by destruct Hes' as [?|[_ ?]]|]. apply elem_of_list_singleton in Hex as ->. cbn. by apply not_digit. }
  assert (stops (fun x => x = "-"%char) (ed' ++ t)) as S5.
  { destruct ed' as [|c ed']; [done|]. cbn. by apply Forall_inv, digit_not_sign in Hed' as [? _]. }
  assert (stops (fun x => x = "E"%char) (es ++ ed' ++ t)) as S6.
  { apply elem_of_cons in Hes as [->|Hes]; [|apply elem_of_list_singleton in Hes as ->; done]. destruct ed' as [|c ed']; [done|]. cbn.
    by apply Forall_inv, digit_not_sign in Hed' as (_ & ? & _). }
  rewrite digits1_complete by done. rewrite maybe_complete by done. rewrite maybe_complete by done. rewrite digits_complete by done.
  by rewrite <- ?app_assoc.
Qed.

Definition plain (l : text) : Prop := nl ∉ l.
Lemma digits_plain l c : Forall digit l -> ~ digit c -> c ∉ l.
Proof. intros HF Hc Hin. rewrite Forall_forall in HF. by apply Hc, HF. Qed.
Lemma numeral_free a c : numeral a -> c = nl \/ c = " "%char -> c ∉ a.
Proof.
  intros (sg & i & f & ex & es & ed & -> & Hs & Ni & Hi & Nf & Hf & Hex & Hes & Hed) Hc.
  assert (~ digit c) as Hd by (destruct Hc as [->| ->]; by apply not_digit).
  assert (c <> "-"%char /\ c <> "E"%char /\ c <> "."%char) as (N1 & N2 & N3) by (by destruct Hc as [->| ->]).
  rewrite !not_elem_of_app. split_and!; try by apply digits_plain.
  - apply elem_of_cons in Hs as [->|Hs]; [apply not_elem_of_nil|]. apply elem_of_list_singleton in Hs as ->. by rewrite elem_of_list_singleton.
  - by rewrite elem_of_list_singleton.
  - apply elem_of_cons in Hex as [->|Hex]; [apply not_elem_of_nil|]. apply elem_of_list_singleton in Hex as ->. by rewrite elem_of_list_singleton.
  - apply elem_of_cons in Hes as [->|Hes]; [apply not_elem_of_nil|]. apply elem_of_list_singleton in Hes as ->. by rewrite elem_of_list_singleton.
Qed.
(** The first occurrence of a character splits a list in one way. *)
Lemma split_unique (c : ascii) l1 l2 r1 r2 : c ∉ l1 -> c ∉ l2 -> l1 ++ c :: r1 = l2 ++ c :: r2 -> l1 = l2 /\ r1 = r2.
Proof.
  revert l2. induction l1 as [|x l1 IH]; intros [|y l2] H1 H2 E; cbn in E.
  - by injection E as <-.
  - injection E as -> _. exfalso. apply H2. by left.
  - injection E as <- _. exfalso. apply H1. by left.
  - injection E as <- E. apply not_elem_of_cons in H1 as [_ H1], H2 as [_ H2]. by destruct (IH _ H1 H2 E) as [-> ->].
Qed.
Lemma result_line_plain l a b : result_line l a b -> plain l.
Proof.
  intros (-> & Ha & Hb). unfold plain. rewrite !not_elem_of_app. split_and!; [apply numeral_free; auto| |apply numeral_free; auto].
  by rewrite elem_of_list_singleton.
Qed.
Lemma result_line_unique l a b a' b' : result_line l a b -> result_line l a' b' -> a = a' /\ b = b'.
Proof.
  intros (-> & Ha & Hb) (E & Ha' & Hb'). apply (split_unique " "%char) in E; [done|..]; apply numeral_free; auto.
Qed.

Lemma match_sound s a b t : match_here s = Some (a, b, t) -> exists l, result_line l a b /\ s = nl :: l ++ nl :: t.
Proof.
  unfold match_here, expect. destruct s as [|c s]; [done|]. destruct (decide (c = nl)) as [->|]; [|done].
  destruct (number s) as [[a1 s1]|] eqn:E1; [|done]. apply number_sound in E1 as [-> H1]. destruct s1 as [|c1 s1]; [done|].
  destruct (decide (c1 = _)) as [->|]; [|done]. destruct (number s1) as [[b1 s2]|] eqn:E2; [|done]. apply number_sound in E2 as [-> H2].
  destruct s2 as [|c2 s2]; [done|]. destruct (decide (c2 = nl)) as [->|]; [|done]. intros [= <- <- <-].
  exists (a1 ++ [" "%char] ++ b1). split; [done|]. by rewrite <- !app_assoc.
Qed.
Lemma match_complete l a b t : result_line l a b -> match_here (nl :: l ++ nl :: t) = Some (a, b, t).
Proof.
  intros (-> & Ha & Hb). unfold match_here. cbn [expect]. rewrite decide_True by done. rewrite <- !app_assoc.
  rewrite number_complete; [|done|by left]. cbn [app expect]. rewrite decide_True by done. rewrite number_complete; [|done|by right].
  cbn [expect]. by rewrite decide_True.
Qed.
Lemma match_line l t : plain l -> (forall a b, ~ result_line l a b) -> match_here (nl :: l ++ nl :: t) = None.
Proof.
  intros Hl Hn. destruct (match_here _) as [[[a b] u]|] eqn:E; [|done]. apply match_sound in E as (l' & HR & E). exfalso.
  injection E as E. apply split_unique in E as [<- _]; [by apply (Hn a b)|done|by eapply result_line_plain].
Qed.
Lemma match_last l : plain l -> match_here (nl :: l) = None.
Proof.
  intros Hl. destruct (match_here _) as [[[a b] u]|] eqn:E; [|done]. apply match_sound in E as (l' & HR & E). injection E as ->.
  exfalso. apply Hl. apply elem_of_app. right. by left.
Qed.
Lemma match_other c s : c <> nl -> match_here (c :: s) = None.
Proof. intros Hc. unfold match_here, expect. by rewrite decide_False. Qed.

(** * The search *)

Lemma skip l : forall s fuel, plain l -> (length (l ++ s) < fuel)%nat ->
  exists fuel', (length s < fuel')%nat /\ findall fuel (l ++ s) = findall fuel' s.
Proof.
  induction l as [|c l IH]; intros s fuel Hl Hf; [by exists fuel|]. apply not_elem_of_cons in Hl as [Hc Hl]. destruct fuel as [|fuel]; [lia|].
  cbn in Hf. destruct (IH s fuel Hl ltac:(lia)) as (f' & Hf' & E). exists f'. split; [done|]. cbn [app findall]. rewrite match_other by congruence. done.
Qed.
Lemma joined_lines lines rs : results_read lines rs -> forall first fuel, plain first -> Forall plain lines ->
  (length (joined first lines) < fuel)%nat -> findall fuel (joined first lines) = rs.
Proof.
  assert (forall l fuel, plain l -> (length l < fuel)%nat -> findall fuel l = []) as Hend.
  { intros l fuel Hl Hf. destruct (skip l [] fuel Hl) as (f' & Hf' & E); [by rewrite app_nil_r|]. rewrite app_nil_r in E. rewrite E. by destruct f'. }
  induction 1 as [|l|l m ls rs Hl H IH|l m a b ls rs Hl H IH]; intros first fuel Hfirst HF Hlen; cbn [joined] in *.
  - by apply Hend.
  - apply Forall_inv in HF. destruct (skip first (newline :: l) fuel Hfirst Hlen) as (f' & Hf' & ->). destruct f' as [|f']; [cbn in Hf'; lia|].
    cbn [findall]. change newline with nl. rewrite match_last by done. apply Hend; [done|]. cbn in Hf'. lia.
  - apply Forall_cons in HF as [Pl HF]. destruct (skip first _ fuel Hfirst Hlen) as (f' & Hf' & ->). destruct f' as [|f']; [cbn in Hf'; lia|].
    cbn [findall]. change newline with nl at 1. rewrite match_line by done. apply (IH l f'); [done|done|]. cbn [joined]. cbn [length] in Hf'. lia.
  - apply Forall_cons in HF as [Pl HF]. apply Forall_cons in HF as [Pm HF]. destruct (skip first _ fuel Hfirst Hlen) as (f' & Hf' & ->).
    destruct f' as [|f']; [cbn in Hf'; lia|]. cbn [findall]. change newline with nl at 1. rewrite (match_complete l a b) by done. f_equal.
    apply IH; [done|done|]. cbn in Hf'. rewrite app_length in Hf'. cbn in Hf'. lia.
Qed.
Lemma split_lines (s : text) : exists first lines, s = joined first lines /\ plain first /\ Forall plain lines.
Proof.
  induction s as [|c s (first & lines & -> & Hf & HL)]; [exists [], []; split_and!; [done|apply not_elem_of_nil|constructor]|].
  destruct (decide (c = nl)) as [->|Hc].
  - exists [], (first :: lines). split_and!; [done|apply not_elem_of_nil|by constructor].
  - exists (c :: first), lines. split_and!; [by destruct lines|by apply not_elem_of_cons|done].
Qed.
Lemma result_line_dec l : (exists a b, result_line l a b) \/ (forall a b, ~ result_line l a b).
Proof.
  destruct (match_here (nl :: l ++ nl :: [])) as [[[a b] t]|] eqn:E.
  - destruct (decide (nl ∈ l)) as [Hin|Hn].
    + right. intros a' b' H%result_line_plain. done.
    + left. exists a, b. apply match_sound in E as (l' & HR & E). injection E as E.
      apply split_unique in E as [-> _]; [done|done|by eapply result_line_plain].
  - right. intros a b H. by rewrite (match_complete _ _ _ [] H) in E.
Qed.
Lemma read_some lines : exists rs, results_read lines rs.
Proof.
  remember (length lines) as n eqn:Hn. revert lines Hn. induction (lt_wf n) as [n _ IH]. intros [|l [|m ls]] ->; [eexists; constructor|eexists; constructor|].
  destruct (result_line_dec l) as [(a & b & H)|H].
  - destruct (IH (length ls) ltac:(cbn; lia) ls eq_refl) as [rs Hrs]. eexists. by econstructor.
  - destruct (IH (length (m :: ls)) ltac:(cbn; lia) (m :: ls) eq_refl) as [rs Hrs]. eexists. by constructor.
Qed.
Lemma read_unique lines rs rs' : results_read lines rs -> results_read lines rs' -> rs = rs'.
Proof.
  intros H. revert rs'. induction H as [|l|l m ls rs Hl H IH|l m a b ls rs Hl H IH]; intros rs' H'; inversion H'; subst; try done.
  - by apply IH.
  - match goal with H : result_line _ _ _ |- _ => by apply Hl in H end.
  - match goal with H : forall a b, ~ result_line _ a b |- _ => by apply H in Hl end.
  - match goal with H : result_line _ _ _ |- _ => destruct (result_line_unique _ _ _ _ _ Hl H) as [-> ->] end. f_equal. by apply IH.
Qed.
Lemma spaced_read lines rs : spaced lines -> results lines rs -> results_read lines rs.
Proof.
  remember (length lines) as n eqn:Hn. revert lines rs Hn. induction (lt_wf n) as [n _ IH]. intros [|l [|m ls]] rs -> Hsp H.
  - inversion H; constructor.
  - inversion H as [|? ? ? Hl H0|? a b ? ? Hl H0]; subst; [inversion H0; constructor|]. by apply Hsp in Hl.
  - destruct Hsp as [H1 Hsp]. inversion H as [|? ? ? Hl H0|? a b ? ? Hl H0]; subst.
    + constructor; [done|]. by apply (IH (length (m :: ls))); [cbn; lia|..].
    + inversion H0 as [|? ? ? Hm H2|? a' b' ? ? Hm H2]; subst; [|exfalso; eapply H1; [by eexists _, _|done]].
      constructor; [done|]. apply (IH (length ls)); [cbn; lia|done| |done]. destruct ls; [done|]. by destruct Hsp.
Qed.
Lemma findall_read (out : text) : exists first lines rs, out = joined first lines /\ plain first /\ Forall plain lines /\
  results_read lines rs /\ findall (S (length out)) out = rs.
Proof.
  destruct (split_lines out) as (first & lines & -> & Hf & HL). destruct (read_some lines) as [rs Hrs]. exists first, lines, rs. split_and!; try done.
  apply joined_lines; [done|done|done|lia].
Qed.

(** * Bounds *)

Lemma support_bounded fl d s : wf_domain d -> float_bounds fl d -> exists s', support_of fl true d s = Ok s' /\ restricted d s s'.
Proof.
  intros W HB. destruct (C12_bounds_are_box fl d W HB) as (g & Hg & He). unfold support_of. rewrite Hg. eexists. split; [done|].
  intros e b Hs. destruct (He e) as [[b' Hb'] Hi]. unfold with_constraint. cbn. rewrite Hs, Hb'. cbn. split; [by eexists|].
  rewrite Hb' in Hi. rewrite andb_true_r. split.
  - intros [= [-> ->]%andb_true_iff]. split; [done|]. by apply Hi.
  - intros [-> Hin]. apply Hi in Hin. injection Hin as ->. done.
Qed.
