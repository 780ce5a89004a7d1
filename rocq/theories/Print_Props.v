(** C59: the printed text determines the printed formula. *)

From stdpp Require Import pretty.
From Verif Require Import Base Smt Walk_Model Math_Spec Transform_Model Print_Model Print_Spec Print_Proofs Print_Read.

(** Two formulas over boolean variables and linear inequalities (variables named by
    identifiers, normalised coefficients in a set [exact] of numbers the decimal
    format keeps apart) with the same printed text have the same value at every
    point.  Missing from C59: products, powers, differences and choices of
    arithmetic expressions outside comparisons, equalities, names that are not
    identifiers, and coefficients identified by rounding: the text does not
    determine those, see the refutations below. *)
Theorem print_determines_partial fmt exact f g s :
  float_format fmt exact -> readable exact f -> readable exact g ->
  pretty_print fmt f = Ok s -> pretty_print fmt g = Ok s -> fequiv f g.
Proof. intros FF. exact (print_faithful fmt exact FF f g s). Qed.
Print Assumptions print_determines_partial.

(** Printing such a formula never fails. *)
Theorem print_succeeds fmt exact f :
  float_format fmt exact -> readable exact f -> exists s, pretty_print fmt f = Ok s.
Proof. intros FF. exact (printed fmt exact FF f). Qed.
Print Assumptions print_succeeds.

(** ** The hypotheses can be met *)

(** A format telling all rationals apart. *)
Definition ex_pos (q : Qc) : string := (pretty (Qnum (this q)) +:+ "." +:+ pretty (Zpos (Qden (this q))))%string.
Definition ex_fmt (q : Qc) : string := if qlt q 0 then String "-" (ex_pos (- q)) else ex_pos q.

Lemma ex_pos_text q : (0 <= q)%Qc -> exists c s s', ex_pos q = String c (s +:+ "." +:+ s')%string /\ digit_char c = true /\
  pretty (Qnum (this q)) = String c s /\ pretty (Zpos (Qden (this q))) = s' /\
  forallb digit_char (C s) = true /\ forallb digit_char (C s') = true.
Proof.
  intros Hq. unfold ex_pos. assert (exists c s, pretty (Qnum (this q)) = String c s /\ digit_char c = true /\ forallb digit_char (C s) = true)
    as (c & s & -> & Hc & Hs).
  { apply Qcle_lt_or_eq in Hq as [Hq|<-]; [|by eexists _, _].
    pose proof (num_pos q Hq) as Hp. destruct (Qnum (this q)) as [|p|p]; [lia| |lia]. apply pretty_pos_digits. }
  destruct (pretty_pos_digits (Qden (this q))) as (c' & s' & -> & Hc' & Hs').
  exists c, s, (String c' s'). split_and!; try done. cbn. by rewrite Hc'.
Qed.

Example ex_format : float_format ex_fmt (fun _ => True).
Proof.
  assert (forall q, (0 <= q)%Qc -> ex_fmt q = ex_pos q) as Hpos.
  { intros q Hq. unfold ex_fmt. assert (qlt q 0 = false) as -> by (by apply qlt_false). done. }
  assert (forall q, (0 < q)%Qc -> ex_fmt (- q)%Qc = String "-" (ex_pos q)) as Hneg.
  { intros q Hq. unfold ex_fmt. assert (qlt (- q) 0 = true) as -> by (apply qlt_spec; qclra).
    by replace (- - q)%Qc with q by ring. }
  assert (forall q r, (0 <= q)%Qc -> (0 <= r)%Qc -> ex_pos q = ex_pos r -> q = r) as Hinj.
  { intros q r Hq Hr He. destruct (ex_pos_text q Hq) as (c & s & s' & E & D & N & P & Ds & Ds').
    destruct (ex_pos_text r Hr) as (d & t & t' & E' & D' & N' & P' & Dt & Dt').
    rewrite E, E' in He. apply (f_equal C) in He. cbn in He. rewrite !C_app in He. injection He as He1 He. subst d.
    apply (cut digit_char) in He as (H1 & _ & H2); try done. apply C_inj in H1 as ->. apply C_inj in H2 as ->.
    rewrite <- N' in N. apply (inj pretty) in N. rewrite <- P' in P. apply (inj pretty) in P. injection P as P.
    apply Qc_is_canon. destruct (this q) as [n1 d1], (this r) as [n2 d2]. cbn in *. by subst. }
  assert (forall q, (0 <= q)%Qc \/ exists p, q = (- p)%Qc /\ (0 < p)%Qc) as Hcases.
  { intros q. destruct (opp_cases q) as [->|[Hq|Hq]]; [by left|left; by apply Qclt_le_weak|by right]. }
  split.
  - intros q _ Hq. apply Qclt_le_weak in Hq. rewrite Hpos by done. destruct (ex_pos_text q Hq) as (c & s & s' & -> & Hc & _ & _ & Hs & Hs').
    exists c, (s +:+ "." +:+ s')%string. split; [done|]. split; [done|]. rewrite !C_app. split.
    + rewrite !forallb_app. cbn. assert (forall l, forallb digit_char l = true -> forallb float_char l = true) as Hl.
      { intros l. apply forallb_impl. intros x. unfold float_char. by intros ->. }
      by rewrite !Hl.
    + exists "."%char. split; [|by left]. apply in_app_iff. right. by left.
  - intros q _ Hq. split; [done|]. rewrite Hneg, Hpos; [done|by apply Qclt_le_weak|done].
  - intros q r _ _ He.
    destruct (Hcases q) as [Hq|(p & -> & Hp)]; destruct (Hcases r) as [Hr|(p' & -> & Hp')].
    + rewrite !Hpos in He by done. by apply Hinj.
    + rewrite (Hpos q), (Hneg p') in He by done. destruct (ex_pos_text q Hq) as (c & s & s' & E & Hc & _). rewrite E in He.
      by injection He as -> _.
    + rewrite (Hpos r), (Hneg p) in He by done. destruct (ex_pos_text r Hr) as (c & s & s' & E & Hc & _). rewrite E in He.
      by injection He as <- _.
    + rewrite !Hneg in He by done. injection He as He. f_equal. apply Hinj; [by apply Qclt_le_weak..|done].
Qed.

Definition print_example : fm :=
  ImpN (Sym "A" TBool)
    (OrN [LeN (TimesN [RealC (qz 4); Sym "x" TReal]) (PlusN [TimesN [RealC (qz 3); Sym "y_1" TReal]; RealC (qz 2)]);
          NotN (IteN (Sym "B" TBool) (LtN (Sym "x" TReal) (RealC (qz 3))) (Sym "A" TBool))]).

(** (In this format 3.4 stands for 3/4.) *)
Example print_example_text : pretty_print ex_fmt print_example =
  Ok "(~A | ((x - 3.4*y_1 <= 1.2) | ~(if B then (1.3*x < 1) else A)))"%string.
Proof. vm_compute. reflexivity. Qed.

Example print_example_readable : readable (fun _ => True) print_example.
Proof.
  apply rd_imp; [by constructor|]. apply rd_or; [done|]. constructor; [|constructor; [|constructor]].
  - apply rd_le. split; [|split; [|split; [|done]]].
    + apply (le_times [RealC (qz 4)] (Sym "x" TReal) []); [repeat constructor|apply le_sym|constructor].
    + apply le_plus; [done|]. constructor; [|constructor; [apply le_const; constructor|constructor]].
      apply (le_times [RealC (qz 3)] (Sym "y_1" TReal) []); [repeat constructor|apply le_sym|constructor].
    + intros x t Hx. apply elem_of_list_In in Hx. cbn in Hx. by destruct Hx as [[= <- <-]|[[= <- <-]|[]]].
  - apply rd_not, rd_ite; [by constructor| |by constructor].
    apply rd_lt. split; [apply le_sym|split; [apply le_const; constructor|split; [|done]]].
    intros x t Hx. apply elem_of_list_In in Hx. cbn in Hx. by destruct Hx as [[= <- <-]|[]].
Qed.

(** ** Where the text does not determine the formula *)

Local Notation x := (Sym "x" TReal).
Local Notation y := (Sym "y" TReal).
Local Notation z := (Sym "z" TReal).
Definition at_ (a b c : Z) : env :=
  Env (fun _ => false) (fun v => if String.eqb v "x" then qz a else if String.eqb v "y" then qz b else qz c).

(** A sum inside a product is printed without parentheses. *)
Theorem print_product_refuted : forall fmt,
  pretty_print fmt (TimesN [PlusN [x; y]; z]) = pretty_print fmt (PlusN [x; TimesN [y; z]]) /\
  pretty_print fmt (TimesN [PlusN [x; y]; z]) = Ok "x + y*z"%string /\
  ~ fequiv (TimesN [PlusN [x; y]; z]) (PlusN [x; TimesN [y; z]]).
Proof. intros fmt. split; [done|]. split; [done|]. intros H. specialize (H (at_ 1 1 2)). vm_compute in H. discriminate. Qed.
Print Assumptions print_product_refuted.

(** So is a difference inside a difference. *)
Theorem print_difference_refuted : forall fmt,
  pretty_print fmt (MinusN x (MinusN y z)) = Ok "x - y - z"%string /\
  pretty_print fmt (MinusN (MinusN x y) z) = Ok "x - y - z"%string /\
  ~ fequiv (MinusN x (MinusN y z)) (MinusN (MinusN x y) z).
Proof. intros fmt. split; [done|]. split; [done|]. intros H. specialize (H (at_ 1 1 2)). vm_compute in H. discriminate. Qed.
Print Assumptions print_difference_refuted.

(** The sign of the first term of a sum is taken for the sign of the whole factor:
    3 * (-2 + z) and -3*2 + z have the same text. *)
Theorem print_sign_refuted : forall fmt,
  pretty_print fmt (TimesN [RealC (qz 3); PlusN [RealC (qz (-2)); z]]) = Ok "-3*2 + z"%string /\
  pretty_print fmt (PlusN [TimesN [RealC (qz (-3)); RealC (qz 2)]; z]) = Ok "-3*2 + z"%string /\
  ~ fequiv (TimesN [RealC (qz 3); PlusN [RealC (qz (-2)); z]]) (PlusN [TimesN [RealC (qz (-3)); RealC (qz 2)]; z]).
Proof.
  intros fmt. split; [vm_compute; reflexivity|]. split; [vm_compute; reflexivity|].
  intros H. specialize (H (at_ 1 1 2)). vm_compute in H. discriminate.
Qed.
Print Assumptions print_sign_refuted.

(** A boolean variable may be called like a truth value. *)
Theorem print_name_refuted : forall fmt,
  pretty_print fmt (Sym "True" TBool) = pretty_print fmt (BoolC true) /\ ~ fequiv (Sym "True" TBool) (BoolC true).
Proof. intros fmt. split; [done|]. intros H. specialize (H (at_ 1 1 2)). vm_compute in H. discriminate. Qed.
Print Assumptions print_name_refuted.

(** Numbers with the same decimal text (1/3 and 0.3333333333333333 have, as doubles,
    and all numbers agreeing in the first decimals when rounding is asked for) give
    different inequalities the same text. *)
Theorem print_rounding_refuted : forall fmt (q r : Qc), q <> r -> fmt q = fmt r ->
  Qden (this q) <> 1%positive -> Qden (this r) <> 1%positive ->
  pretty_print fmt (PlusN [x; RealC q]) = pretty_print fmt (PlusN [x; RealC r]) /\
  ~ fequiv (PlusN [x; RealC q]) (PlusN [x; RealC r]).
Proof.
  intros fmt q r Hne He Hq Hr. split.
  - assert (number_text fmt q = number_text fmt r) as HN.
    { unfold number_text. by rewrite (proj2 (Pos.eqb_neq _ _) Hq), (proj2 (Pos.eqb_neq _ _) Hr). }
    assert (forall v, pretty_print fmt (PlusN [x; RealC v]) = plus_text ["x"%string; number_text fmt v]) as HP by done.
    by rewrite !HP, HN.
  - intros H. specialize (H (at_ 0 0 0)). apply Hne.
    assert (forall v, eval (at_ 0 0 0) (PlusN [x; RealC v]) = Some (VN (qz 0 + (v + 0))%Qc)) as HE by done.
    rewrite !HE in H. assert (forall u v : val, Some u = Some v -> u = v) as HS by congruence. apply HS in H.
    assert (forall u v : Qc, VN u = VN v -> u = v) as HV by congruence. apply HV in H.
    generalize dependent (qz 0). intros k H. qclra.
Qed.
Print Assumptions print_rounding_refuted.
