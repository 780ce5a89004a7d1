(** C54: the SMT-LIB importer.

    Read with Smtlib_Spec (the meaning of SMT-LIB terms) and Smtlib_Model (the
    importer). *)

From Verif Require Import Base Smt Dict Smtlib_Model Smtlib_Spec Smtlib_Proofs.

Section C54.
  Variable fl : Qc -> Qc.           (* float(text) of a decimal *)
  Variable simp : fm -> fm.         (* pysmt's simplify *)
  Hypothesis simp_sound : forall f e v, eval e f = Some v -> eval e (simp f) = Some v.

  (** The variables given to the importer have different names; the numeric ones are
      not booleans. *)
  Definition known (domA : list string) (domX : list (string * ty)) : Prop :=
    NoDup (domA ++ map fst domX) /\ Forall (fun '(_, t) => t <> TBool) domX.

  (** Whatever the file, if it is imported, then under every assignment the support
      has the value of the conjunction of the asserted terms, the weight the value of
      the weight term (one when there is none; never more than one), the queries the
      values of the queried terms, in order; and the variables are those given and
      those declared.  Only decimals that are floating-point numbers are covered. *)
  Theorem smtlib_import_meaning domA domX cs r :
    known domA domX ->
    Forall (exact_decimals fl) (asserted cs ++ weights cs ++ queried cs) ->
    parse fl simp domA domX cs = Ok r ->
    let sg := signature domA domX cs in
    NoDup (map fst sg) /\
    (forall e bs, Forall2 (fun t b => meaning sg e t (VB b)) (asserted cs) bs ->
       eval e (i_support r) = Some (VB (forallb id bs))) /\
    (weights cs = [] /\ (forall e, eval e (i_weight r) = Some (VN 1)) \/
     exists t, weights cs = [t] /\ forall e v, meaning sg e t v -> eval e (i_weight r) = Some v) /\
    Forall2 (fun t f => forall e v, meaning sg e t v -> eval e f = Some v) (queried cs) (i_queries r) /\
    i_bools r = map (fun x => Sym x TBool) domA ++ declared_bools cs /\
    i_reals r = map (fun '(x, t) => Sym x t) domX ++ declared_numbers cs.
  Proof.
    intros [Hnd HX] HE H sg. unfold parse in H.
    destruct (visit_commands fl (vinit domA domX) cs) as [s|] eqn:Ec; [|done]. cbn [rbind] in H.
    destruct (vinit_ok domA domX Hnd HX) as (Hw & Hd & I1 & I2 & I3 & I4 & I5).
    destruct (commands_ok fl cs _ _ s Hw Hd Ec) as (Hw' & _ & B & R & (fs & S1 & SF) & (qs & Q1 & QF) & W).
    assert (signature domA domX [] ++ concat (map declares cs) = sg) as Hsg.
    { unfold sg, signature. cbn [map concat]. by rewrite app_nil_r, <- app_assoc. }
    rewrite Hsg in *. rewrite I3 in S1. rewrite I5 in Q1. rewrite I4 in W. cbn [app] in S1, Q1.
    res_step H. apply chk_ok in Heqr0 as [-> Ht]. injection H as <-. cbn [i_support i_weight i_queries i_bools i_reals].
    apply Forall_app in HE as [HEa HE]. apply Forall_app in HE as [HEw HEq].
    split; [apply Hw'|]. split_and!.
    - intros e bs HM. apply simp_sound. rewrite S1 in *.
      assert (Forall2 (fun f b => eval e f = Some (VB b)) fs bs) as HV.
      { clear -SF HM HEa. revert bs HM. induction SF as [|t f ts fs [G K] SF IH]; intros bs HM.
        - inversion HM. constructor.
        - inversion HM; subst. inversion HEa; subst. constructor; [by apply G|]. by apply IH. }
      destruct fs as [|f1 [|f2 l]]; cbn [mkAnd].
      + inversion HV; subst. done.
      + inversion HV as [|? b ? ? E1 HV']; subst. inversion HV'; subst. cbn. rewrite E1. by destruct b.
      + apply mapM_Forall2_vbool in HV. cbn [eval]. by rewrite HV.
    - destruct W as [[W1 W2]|(t & f & W1 & _ & W3 & G & K)].
      + left. split; [done|]. intros e. rewrite W2. by apply simp_sound.
      + right. exists t. split; [done|]. intros e v Hm. rewrite W3. apply simp_sound.
        rewrite W1 in HEw. inversion HEw; subst. by apply G.
    - rewrite Q1. clear -QF HEq. induction QF as [|t f ts fs G QF IH]; [constructor|].
      inversion HEq; subst. constructor; [|by apply IH]. intros e v Hm. by apply G.
    - by rewrite B, I1.
    - by rewrite R, I2.
  Qed.

  (** An imported file has no ill-typed term: under every assignment SMT-LIB gives
      each asserted term a truth value, the weight a number and each query a value,
      from the names declared before it.

      Partial: the statement is restricted to [regular] terms.  The operators +, *,
      and, or accept a single operand of any type and hand it on unchanged, and tokens
      of zeros and ones starting with zero are read as numbers
      ([smtlib_ill_typed_accepted_refuted]).  Divisors that are not constants are not
      modelled. *)
  Theorem smtlib_ill_typed_rejected_partial domA domX cs1 c cs2 r :
    known domA domX -> parse fl simp domA domX (cs1 ++ c :: cs2) = Ok r ->
    let sg := signature domA domX cs1 in
    match c with
    | CAssert t => regular t -> exact_decimals fl t -> forall e, exists b, meaning sg e t (VB b)
    | CWeight t => regular t -> exact_decimals fl t -> forall e, exists q, meaning sg e t (VN q)
    | CQuery t => regular t -> exact_decimals fl t -> forall e, exists v, meaning sg e t v
    | CDeclareConst x sort => x ∉ map fst sg /\ sort ∈ ["Int"; "Real"; "Bool"]%string
    | CDeclareFun x n sort => n = 0%nat /\ x ∉ map fst sg /\ sort ∈ ["Int"; "Real"; "Bool"]%string
    | COther => False
    end.
  Proof.
    intros [Hnd HX] H sg. unfold parse in H.
    destruct (visit_commands fl (vinit domA domX) (cs1 ++ c :: cs2)) as [s|] eqn:Ec; [|done]. clear H.
    assert (exists s1 s2, visit_commands fl (vinit domA domX) cs1 = Ok s1 /\ visit_command fl s1 c = Ok s2)
      as (s1 & s2 & E1 & E2).
    { clear -Ec. generalize dependent (vinit domA domX). induction cs1 as [|d cs1 IH]; intros s0 Ec.
      - cbn in Ec. destruct (visit_command fl s0 c) as [s2|] eqn:E; [|done]. by exists s0, s2.
      - cbn in Ec |- *. destruct (visit_command fl s0 d) as [s0'|] eqn:E; [|done]. cbn [rbind] in *.
        by apply IH. }
    destruct (vinit_ok domA domX Hnd HX) as (Hw & Hd & _).
    destruct (commands_ok fl cs1 _ _ s1 Hw Hd E1) as (Hw' & Hd' & _).
    assert (signature domA domX [] ++ concat (map declares cs1) = sg) as Hsg.
    { unfold sg, signature. cbn [map concat]. by rewrite app_nil_r, <- app_assoc. }
    rewrite Hsg in *.
    destruct (command_ok fl sg c s1 s2 Hw' Hd' E2) as (_ & _ & _ & _ & (fs & _ & SF) & (qs & _ & QF) & W).
    assert (upto sg sg) as HU by (split; [apply Hw'|done]).
    assert (forall x, dget (v_vars s1) x = None -> x ∉ map fst sg) as Hnew.
    { intros x Hx Hin. apply Hd' in Hin as [? Hin]. congruence. }
    assert (forall x sort s', declare s1 x sort = Ok s' -> x ∉ map fst sg /\ sort ∈ ["Int"; "Real"; "Bool"]%string) as HD.
    { intros x sort s' H. unfold declare in H.
      destruct (decide (x ∈ unsupported_symbols)); [done|].
      destruct (decide (x = "true"%string \/ x = "false"%string)); [done|].
      destruct (dget (v_vars s1) x) eqn:Hx; [done|]. split; [by apply Hnew|].
      destruct (decide (sort = "Int"%string)) as [->|]; [dec|].
      destruct (decide (sort = "Real"%string)) as [->|]; [dec|].
      destruct (decide (sort = "Bool"%string)) as [->|]; [dec|done]. }
    destruct c as [t|x sort|x n sort|t|t|].
    - intros HR HE e. inversion SF as [|? f ? ? [G K] _]; subst. destruct (G sg HU) as (Ht & Gm & Gx).
      destruct (Gx HR HE e) as [v Hm]. destruct (K HR HE) as (ty & Hty & Hk).
      pose proof (typeof_kind f ty e v Hty (Gm HE e v Hm)) as Hv. rewrite Hk in Hv.
      destruct v as [b|]; [|done]. by exists b.
    - by eapply HD.
    - cbn in E2. destruct (decide (x ∈ unsupported_symbols)); [done|].
      destruct (dget (v_vars s1) x) eqn:Hx; [done|]. destruct (decide (0 < n)%nat); [done|].
      split; [lia|]. by eapply HD.
    - intros HR HE e. destruct W as [[W _]|(t' & f & W & _ & _ & G & K)]; [done|]. injection W as <-.
      destruct (G sg HU) as (Ht & Gm & Gx). destruct (Gx HR HE e) as [v Hm]. destruct (K HR HE) as (ty & Hty & Hk).
      pose proof (typeof_kind f ty e v Hty (Gm HE e v Hm)) as Hv. rewrite Hk in Hv.
      destruct v as [|q]; [done|]. by exists q.
    - intros HR HE e. inversion QF as [|? f ? ? G _]; subst. destruct (G sg HU) as (Ht & Gm & Gx).
      by apply Gx.
    - done.
  Qed.

  (** A value given by SMT-LIB is the only one, so the two theorems above determine
      what the imported formulas evaluate to. *)
  Theorem smtlib_meaning_unique sg e t v v' :
    NoDup (map fst sg) -> meaning sg e t v -> meaning sg e t v' -> v = v'.
  Proof. intros Hnd. by apply meaning_unique_all. Qed.

  (** A file of declarations of new names, well-typed assertions and boolean queries
      is imported, whatever was read before.

      Partial: only for [pairwise] terms.  With three operands or more the
      conversion of integers to reals is made between neighbours only, so that
      acceptance depends on the order of the operands and on earlier terms
      ([smtlib_acceptance_history_refuted]); files with a weight are left out because
      an integer weight changes the variables it mentions. *)
  Theorem smtlib_accepts_well_typed_partial domA domX cs :
    NoDup (domA ++ map fst domX) -> Forall (fun '(_, t) => t = TReal) domX ->
    Forall (fun x => x ∉ unsupported_symbols) (domA ++ map fst domX) ->
    well_typed_file fl (signature domA domX []) cs ->
    exists r, parse fl simp domA domX cs = Ok r.
  Proof.
    intros Hnd HX Hbad HW. pose proof (vinit_inv domA domX Hnd HX Hbad) as Hi.
    destruct (file_accepted fl cs _ _ Hi HW) as (s' & E & Hi' & Hs').
    { destruct (vinit_ok domA domX) as (_ & _ & _ & _ & -> & _); [done| |constructor].
      eapply Forall_impl; [exact HX|]. intros [x t] ->. done. }
    unfold parse. rewrite E. cbn [rbind].
    assert (typeof (mkAnd (v_support s')) = Some TBool) as HT.
    { destruct (v_support s') as [|f1 [|f2 l]]; [done|by inversion Hs'|].
      cbn [mkAnd typeof]. by rewrite (proj2 (all_ty_Forall TBool (f1 :: f2 :: l)) Hs'). }
    unfold chk. rewrite HT. cbn [rbind]. eauto.
  Qed.
End C54.

Print Assumptions smtlib_import_meaning.
Print Assumptions smtlib_ill_typed_rejected_partial.
Print Assumptions smtlib_meaning_unique.
Print Assumptions smtlib_accepts_well_typed_partial.

(** * A file meeting the hypotheses *)

Definition id_fl (q : Qc) : Qc := q.
Definition id_simp (f : fm) : fm := f.
Definition half : Qc := Q2Qc (1 # 2).

(** (declare-const n Int) (declare-fun x () Real) (declare-const A Bool)
    an assertion that A implies n < 2 x, (assert (or A (>= x 0.5))) (query (and A (= n 1)))
    (weight (ite A (+ x n) (/ x 2))) *)
Definition t1 := TApp "=>" [TId "A"; TApp "<" [TId "n"; TApp "*" [TNum 2; TId "x"]]].
Definition t2 := TApp "or" [TId "A"; TApp ">=" [TId "x"; TDec half]].
Definition t3 := TApp "and" [TId "A"; TApp "=" [TId "n"; TNum 1]].
Definition t4 := TApp "ite" [TId "A"; TApp "+" [TId "x"; TId "n"]; TApp "/" [TId "x"; TNum 2]].
Definition decls : list command :=
  [CDeclareConst "n" "Int"; CDeclareFun "x" 0 "Real"; CDeclareConst "A" "Bool"].
Definition file : list command := decls ++ [CAssert t1; CAssert t2; CQuery t3; CWeight t4].

Definition sgf : list (string * skind) := [("n", KNum); ("x", KNum); ("A", KBool)]%string.

(** n = 1, x = 3, A true. *)
Definition ef : env := Env (fun _ => true) (fun v => if decide (v = "n"%string) then 1%Qc else Q2Qc 3).

Lemma num_name sg e x v : x <> "true"%string -> x <> "false"%string -> (x, KNum) ∈ sg -> v = er e x -> meaning sg e (TId x) (VN v).
Proof. intros ? ? ? ->. by apply m_number. Qed.
Lemma bool_name sg e x b : x <> "true"%string -> x <> "false"%string -> (x, KBool) ∈ sg -> b = eb e x -> meaning sg e (TId x) (VB b).
Proof. intros ? ? ? ->. by apply m_bool. Qed.

Ltac member := unfold sgf; repeat first [apply elem_of_list_here | apply elem_of_list_further].
Ltac m_step :=
  first [ apply m_num | apply m_dec
        | apply num_name; [discriminate|discriminate|solve [member]|reflexivity]
        | apply bool_name; [discriminate|discriminate|solve [member]|reflexivity] ].
Ltac m_list := repeat (first [apply Forall2_nil_2 | apply Forall2_cons_2; [first [m_step|idtac]|]]).

Lemma t1_meaning : meaning sgf ef t1 (VB true).
Proof.
  apply (m_app sgf ef "=>" _ [VB true; VB true]); [|exact (om_imp true true)].
  m_list. apply (m_app sgf ef "<" _ [VN 1; VN (qprod [qz 2; Q2Qc 3])]).
  - m_list. apply (m_app sgf ef "*" _ [VN (qz 2); VN (Q2Qc 3)]); [m_list|].
    exact (om_times (qz 2) [Q2Qc 3]).
  - exact (om_lt 1 (qprod [qz 2; Q2Qc 3])).
Qed.
Lemma t2_meaning : meaning sgf ef t2 (VB true).
Proof.
  apply (m_app sgf ef "or" _ [VB true; VB true]); [|exact (om_or true [true])].
  m_list. apply (m_app sgf ef ">=" _ [VN (Q2Qc 3); VN half]); [m_list|].
  exact (om_ge (Q2Qc 3) half).
Qed.
Lemma t4_meaning : exists q, q = Q2Qc 4 /\ meaning sgf ef t4 (VN q).
Proof.
  exists (qsum [Q2Qc 3; 1%Qc]). split; [by apply Qc_is_canon|].
  apply (m_app sgf ef "ite" _ [VB true; VN (qsum [Q2Qc 3; 1%Qc]); VN (Q2Qc 3 / qz 2)]);
    [|exact (om_ite_num true _ _)].
  m_list.
  - apply (m_app sgf ef "+" _ [VN (Q2Qc 3); VN 1]); [m_list|]. exact (om_plus (Q2Qc 3) [1%Qc]).
  - apply (m_app sgf ef "/" _ [VN (Q2Qc 3); VN (qz 2)]); [m_list|].
    apply om_div. intros H. apply (f_equal this) in H. discriminate.
Qed.

(** The file is imported; at n = 1, x = 3, A true its support holds and its weight is
    4; all its terms are regular. *)
Example smtlib_case : known [] [] /\ Forall regular [t1; t2; t3; t4] /\
  Forall (exact_decimals id_fl) (asserted file ++ weights file ++ queried file) /\
  exists r, parse id_fl id_simp [] [] file = Ok r /\
    eval ef (i_support r) = Some (VB true) /\ eval ef (i_weight r) = Some (VN (Q2Qc 4)) /\
    i_bools r = [Sym "A" TBool] /\ i_reals r = [Sym "n" TInt; Sym "x" TReal].
Proof.
  assert (known [] []) as HK by (split; constructor).
  assert (Forall (exact_decimals id_fl) (asserted file ++ weights file ++ queried file)) as HE.
  { repeat constructor. }
  split; [done|]. split.
  { repeat constructor; intros _; cbn; lia. }
  split; [done|].
  destruct (parse id_fl id_simp [] [] file) as [r|] eqn:E; [|vm_compute in E; discriminate].
  exists r. split; [done|].
  destruct (smtlib_import_meaning id_fl id_simp (fun f e v H => H) [] [] file r HK HE E)
    as (_ & HS & HW & _ & HB & HR).
  split_and!; [| |done|done].
  - rewrite (HS ef [true; true]); [done|].
    apply Forall2_cons_2; [exact t1_meaning|]. apply Forall2_cons_2; [exact t2_meaning|constructor].
  - destruct HW as [[HW _]|(t & HW & Hm)]; [done|]. injection HW as <-.
    destruct t4_meaning as (q & <- & H4). by apply Hm.
Qed.

(** The declarations, assertions and queries of the file form a well-typed file. *)
Example smtlib_accepts_case :
  well_typed_file id_fl (signature [] [] []) (decls ++ [CAssert t1; CAssert t2]) /\
  Forall pairwise [t1; t2; t3; t4].
Proof.
  split.
  - cbn [well_typed_file decls app signature map concat declares].
    assert (forall t, pairwise t -> exact_decimals id_fl t -> (exists e b, meaning sgf e t (VB b)) ->
      pairwise t /\ exact_decimals id_fl t /\ exists e b, meaning sgf e t (VB b)) as Ht by auto.
    split; [split_and!; first [discriminate|dec]|].
    split; [split_and!; first [discriminate|dec]|].
    split; [split_and!; first [discriminate|dec]|].
    split; [apply Ht|split; [apply Ht|done]].
    + repeat constructor; intros ?; first [done|exfalso; revert H; apply (bool_decide_unpack (~ _)); vm_compute; exact I].
    + repeat constructor.
    + exists ef, true. exact t1_meaning.
    + repeat constructor; intros ?; first [done|exfalso; revert H; apply (bool_decide_unpack (~ _)); vm_compute; exact I].
    + repeat constructor.
    + exists ef, true. exact t2_meaning.
  - repeat constructor; intros ?; first [done|exfalso; revert H; apply (bool_decide_unpack (~ _)); vm_compute; exact I].
Qed.

(** * What does not hold *)

(** (assert (and 1)) has no meaning and is imported; the support is then the integer
    1, which is no formula. *)
Theorem smtlib_ill_typed_accepted_refuted fl : exists t r,
  parse fl id_simp [] [] [CAssert t] = Ok r /\ (forall sg e v, ~ meaning sg e t v) /\
  forall e b, eval e (i_support r) <> Some (VB b).
Proof.
  exists (TApp "and" [TNum 1]). eexists. split; [vm_compute; reflexivity|]. split; [|discriminate].
  intros sg e v H. inversion H as [| | | | | |op args vs v' HF HO]; subst.
  inversion HF as [|? v1 ? ? H1 HN]; subst. inversion HN; subst. inversion H1; subst.
  inversion HO.
Qed.
Print Assumptions smtlib_ill_typed_accepted_refuted.

(** Whether a well-typed term is accepted depends on the order of its operands and on
    the terms read before: n + 1 + x < 3 is rejected, n + x + 1 < 3 is accepted, and
    n + 1 + x < 3 is accepted once n < x has been read. *)
Theorem smtlib_acceptance_history_refuted fl :
  let ds := [CDeclareConst "n" "Int"; CDeclareConst "x" "Real"] in
  let lt3 args := CAssert (TApp "<" [TApp "+" args; TNum 3]) in
  let bad := lt3 [TId "n"; TNum 1; TId "x"] in
  parse fl id_simp [] [] (ds ++ [bad]) = Err PysmtTypeError /\
  (exists r, parse fl id_simp [] [] (ds ++ [lt3 [TId "n"; TId "x"; TNum 1]]) = Ok r) /\
  (exists r, parse fl id_simp [] []
     (ds ++ [CAssert (TApp "<" [TId "n"; TId "x"]); bad]) = Ok r).
Proof.
  cbv zeta. split_and!; [vm_compute; reflexivity| |]; eexists; vm_compute; reflexivity.
Qed.
Print Assumptions smtlib_acceptance_history_refuted.

(** An integer variable given as the weight cannot be compared with an integer in a
    later assertion; the same two commands in the other order are accepted. *)
Theorem smtlib_weight_first_refuted fl :
  let d := CDeclareConst "n" "Int" in
  let w := CWeight (TId "n") in
  let a := CAssert (TApp "<" [TId "n"; TNum 3]) in
  parse fl id_simp [] [] [d; w; a] = Err PysmtTypeError /\
  exists r, parse fl id_simp [] [] [d; a; w] = Ok r.
Proof. cbv zeta. split; [|eexists]; vm_compute; reflexivity. Qed.
Print Assumptions smtlib_weight_first_refuted.

(** A decimal that is not a floating-point number is replaced by another number. *)
Theorem smtlib_decimal_rounded_refuted fl q : fl q <> q -> exists r,
  parse fl id_simp [] [] [CWeight (TDec q)] = Ok r /\
  forall e, meaning [] e (TDec q) (VN q) /\ eval e (i_weight r) <> Some (VN q).
Proof.
  intros H. eexists. split; [reflexivity|]. intros e. split; [constructor|].
  cbn. intros [= E]. done.
Qed.
Print Assumptions smtlib_decimal_rounded_refuted.
Example smtlib_decimal_case : exists fl q, (fl : Qc -> Qc) q <> q.
Proof. exists (fun _ => half), 1%Qc. intros H. by apply (f_equal this) in H. Qed.

(** Errors of a file are not always reported as parsing errors: a boolean weight and
    a real query end in an AttributeError, an undeclared name asserted on its own in a
    KeyError. *)
Theorem smtlib_error_kind_refuted fl :
  let d := CDeclareConst "x" "Real" in
  parse fl id_simp [] [] [d; CWeight (TApp "<" [TId "x"; TNum 3])] = Err AttributeError /\
  parse fl id_simp [] [] [d; CQuery (TId "x")] = Err AttributeError /\
  parse fl id_simp [] [] [d; CAssert (TId "y")] = Err KeyError /\
  parse fl id_simp [] [] [d; CAssert (TApp "not" [TId "y"])] = Err ParsingError.
Proof. cbv zeta. split_and!; vm_compute; reflexivity. Qed.
Print Assumptions smtlib_error_kind_refuted.

(** A token of binary digits (the grammar gives them no prefix) loses its first two digits:
    the number read is the place value of the others, and two digits alone end in a
    ValueError. *)
Fixpoint place_value (ds : list bool) : Z :=
  match ds with [] => 0 | d :: ds => Z.b2z d * 2 ^ Z.of_nat (length ds) + place_value ds end.
Lemma bin_val_from l : forall z, fold_left (fun z (b : bool) => (2 * z + (if b then 1 else 0))%Z) l z = (z * 2 ^ Z.of_nat (length l) + place_value l)%Z.
Proof.
  induction l as [|d l IH]; intros z; cbn [fold_left length place_value]; [cbn; lia|]. rewrite IH.
  rewrite Nat2Z.inj_succ, Z.pow_succ_r by lia. destruct d; cbn [Z.b2z]; ring.
Qed.
Theorem smtlib_binary_refuted fl a b ds : ds <> [] ->
  (exists r, parse fl id_simp [] [] [CWeight (TBin (a :: b :: ds))] = Ok r /\
     forall e, eval e (i_weight r) = Some (VN (qz (place_value ds)))) /\
  parse fl id_simp [] [] [CWeight (TBin [a; b])] = Err ValueError.
Proof.
  intros Hd. destruct ds as [|d ds]; [done|]. split; [|done]. eexists. split; [reflexivity|]. intros e. cbn. do 2 f_equal.
  pose proof (bin_val_from (d :: ds) 0) as H. unfold bin_val. cbn [fold_left] in *. cbn in H. rewrite H. done.
Qed.
Print Assumptions smtlib_binary_refuted.
Example smtlib_binary_case : [true; false; true] <> [] /\ place_value [true; false; true] = 5%Z.
Proof. done. Qed.
