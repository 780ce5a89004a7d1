(** C67: importing densities (pywmi/convert.py). *)

From Coq Require Import DecimalString.
From Verif Require Import Base Dict Smt Parse_Model Xadd_Model Cli_Model External_Spec External_Proofs.
From Verif Require Smtlib_Model Smtlib_Spec Smtlib_Proofs Smtlib_Props Minizinc_Spec Minizinc_Proofs.
From Verif Require Import Minizinc_Model Minizinc_Props Domain_Model Domain_Spec Domain_Proofs Domain_Props Engine_Model Convert_Model Convert_Spec Convert_Proofs.

Notation keeps_value := Minizinc_Spec.keeps_value.

(** * SMT-LIB files *)

Global Instance skind_eq_dec : EqDecision Smtlib_Spec.skind.
Proof. solve_decision. Defined.

(** The names a file declares, as booleans or as numbers. *)
Definition declared (k : Smtlib_Spec.skind) (cs : list Smtlib_Model.command) : list string :=
  map fst (filter (fun p => snd p = k) (Smtlib_Spec.signature [] [] cs)).
Definition terms (cs : list Smtlib_Model.command) : list Smtlib_Model.sterm :=
  Smtlib_Spec.asserted cs ++ Smtlib_Spec.weights cs ++ Smtlib_Spec.queried cs.

Lemma declared_elem k cs x : x ∈ declared k cs <-> (x, k) ∈ Smtlib_Spec.signature [] [] cs.
Proof.
  unfold declared. rewrite elem_of_list_fmap. split.
  - intros ([y k'] & -> & Hp). apply elem_of_list_filter in Hp as [E Hp]. cbn in *. by subst.
  - intros H. exists (x, k). split; [done|]. by apply elem_of_list_filter.
Qed.
Lemma signature_cons c cs : Smtlib_Spec.signature [] [] (c :: cs) = Smtlib_Spec.declares c ++ Smtlib_Spec.signature [] [] cs.
Proof. done. Qed.
Lemma declared_bools_names cs : map fst (map sym_type (Smtlib_Spec.declared_bools cs)) = declared Smtlib_Spec.KBool cs.
Proof.
  induction cs as [|c cs IH]; [done|]. unfold declared. rewrite signature_cons, filter_app, map_app. fold (declared Smtlib_Spec.KBool cs). rewrite <- IH.
  unfold Smtlib_Spec.declared_bools. cbn [map concat]. rewrite !map_app. f_equal.
  destruct c; cbn; try done; unfold Smtlib_Spec.kind_of_sort; (destruct (decide (sort = "Bool"%string)); by cbn).
Qed.
Lemma declared_numbers_names cs : map fst (map sym_type (Smtlib_Spec.declared_numbers cs)) = declared Smtlib_Spec.KNum cs.
Proof.
  induction cs as [|c cs IH]; [done|]. unfold declared. rewrite signature_cons, filter_app, map_app. fold (declared Smtlib_Spec.KNum cs). rewrite <- IH.
  unfold Smtlib_Spec.declared_numbers. cbn [map concat]. rewrite !map_app. f_equal.
  destruct c; cbn; try done; unfold Smtlib_Spec.kind_of_sort; (destruct (decide (sort = "Bool"%string)); by cbn).
Qed.
Lemma sub_meaning sg sg' e : (forall p, p ∈ sg -> p ∈ sg') -> forall t v, Smtlib_Spec.meaning sg e t v -> Smtlib_Spec.meaning sg' e t v.
Proof.
  intros Hs. fix IH 3. intros t v H. destruct H as [z|q| | |x N1 N2 Hx|x N1 N2 Hx|op args vs v HF HO].
  1-4: constructor.
  - apply Smtlib_Spec.m_bool; [exact N1|exact N2|exact (Hs _ Hx)].
  - apply Smtlib_Spec.m_number; [exact N1|exact N2|exact (Hs _ Hx)].
  - apply Smtlib_Spec.m_app with (vs := vs); [|exact HO]. clear HO. induction HF as [|t w ts ws Ht HF IHF]; constructor; [exact (IH _ _ Ht)|exact IHF].
Qed.
Lemma signature_app cs cs' : Smtlib_Spec.signature [] [] (cs ++ cs') = Smtlib_Spec.signature [] [] cs ++ Smtlib_Spec.signature [] [] cs'.
Proof. unfold Smtlib_Spec.signature. cbn. by rewrite map_app, concat_app. Qed.
Lemma in_commands {A} (f : Smtlib_Model.command -> list A) cs t : t ∈ concat (map f cs) -> exists cs1 c cs2, cs = cs1 ++ c :: cs2 /\ t ∈ f c.
Proof.
  induction cs as [|c cs IH]; cbn; [intros H; by apply elem_of_nil in H|]. intros H. apply elem_of_app in H as [H|H].
  - by exists [], c, cs.
  - destruct (IH H) as (cs1 & c' & cs2 & -> & Ht). by exists (c :: cs1), c', cs2.
Qed.

(** An SMT-LIB file that is read gives a density over the declared variables: booleans and
    unbounded reals, each once; its formulas mean what the file says and depend on these
    variables only.  Partial: terms in which +, *, and, or have two operands or more, no
    binary token occurs, and decimals are floating-point numbers. *)
Theorem C67_smt_partial read to_int fl simp order src fuel name cs r :
  (forall f e v, eval e f = Some v -> eval e (simp f) = Some v) -> iterates order ->
  src_smtlib src name = Ok cs -> Smtlib_Model.parse fl simp [] [] cs = Ok r ->
  Forall Smtlib_Spec.regular (terms cs) -> Forall (Smtlib_Spec.exact_decimals fl) (terms cs) ->
  exists n, import_density read to_int fl simp order src fuel name (Some "smt"%string) = Ok n /\
    over (n_dom n) (declared Smtlib_Spec.KBool cs) (map (fun x => (x, (None, None))) (declared Smtlib_Spec.KNum cs)) /\
    (forall e bs, Forall2 (fun t b => Smtlib_Spec.meaning (Smtlib_Spec.signature [] [] cs) e t (VB b)) (Smtlib_Spec.asserted cs) bs ->
       eval e (n_support n) = Some (VB (forallb id bs))) /\
    (Smtlib_Spec.weights cs = [] /\ (forall e, eval e (n_weight n) = Some (VN 1)) \/
     exists t, Smtlib_Spec.weights cs = [t] /\
       forall e v, Smtlib_Spec.meaning (Smtlib_Spec.signature [] [] cs) e t v -> eval e (n_weight n) = Some v) /\
    Forall2 (fun t f => forall e v, Smtlib_Spec.meaning (Smtlib_Spec.signature [] [] cs) e t v -> eval e f = Some v)
      (Smtlib_Spec.queried cs) (n_queries n) /\
    closed n.
Proof.
  intros Hs HO Hc Hr HG HE. cbn [import_density]. unfold import_smt. rewrite Hc. cbn [rbind]. rewrite Hr. cbn [rbind].
  assert (Smtlib_Props.known [] []) as HK by (split; constructor).
  pose proof (Smtlib_Props.smtlib_import_meaning fl simp Hs [] [] cs r HK HE Hr) as (ND & HA & HW & HQ & HB & HR). cbn [map app] in HB, HR.
  assert (forall k l, (forall x, x ∈ map fst l <-> x ∈ declared k cs) -> forall x, x ∈ map fst (order l) <-> x ∈ declared k cs) as Hord.
  { intros k l Hl x. rewrite <- Hl, !elem_of_list_fmap. destruct (HO l) as [_ HO']. split; intros (p & -> & Hp); exists p; split; try done; by apply HO'. }
  assert (forall x, x ∈ map fst (order (map sym_type (Smtlib_Model.i_bools r))) <-> x ∈ declared Smtlib_Spec.KBool cs) as E1.
  { apply Hord. intros x. by rewrite HB, declared_bools_names. }
  assert (forall x, x ∈ map fst (order (map sym_type (Smtlib_Model.i_reals r))) <-> x ∈ declared Smtlib_Spec.KNum cs) as E2.
  { apply Hord. intros x. by rewrite HR, declared_numbers_names. }
  assert (forall p q : string * Smtlib_Spec.skind, p ∈ Smtlib_Spec.signature [] [] cs -> q ∈ Smtlib_Spec.signature [] [] cs -> fst p = fst q -> p = q) as Huniq.
  { intros [x k] [y k'] Hp Hq E. cbn in E. subst y. f_equal. assert (dget (Smtlib_Spec.signature [] [] cs) x = Some k) as G1 by (by apply In_dget).
    assert (dget (Smtlib_Spec.signature [] [] cs) x = Some k') as G2 by (by apply In_dget). congruence. }
  assert (forall l, NoDup (map fst l) -> NoDup (map fst (order l))) as Hnd.
  { intros l Hl. destruct (HO l) as [N1 N2]. clear -Hl N1 N2. assert (forall p q, p ∈ order l -> q ∈ order l -> fst p = fst q -> p = q) as Hu.
    { intros [x t] [y t'] Hp Hq E. cbn in E. subst y. rewrite N2 in Hp, Hq. f_equal.
      assert (dget l x = Some t) as G1 by (by apply In_dget). assert (dget l x = Some t') as G2 by (by apply In_dget). congruence. }
    clear N2 Hl. induction N1 as [|p ps Hp N1 IH]; [constructor|]. cbn. constructor.
    - intros Hin. apply elem_of_list_fmap in Hin as (q & E & Hq). rewrite (Hu p q) in Hp; [done|by left|by right|done].
    - apply IH. intros a b Ha Hb. apply Hu; by right. }
  assert (forall k, NoDup (declared k cs)) as NDk.
  { intros k. unfold declared. clear -ND. revert ND. induction (Smtlib_Spec.signature [] [] cs) as [|p l IH]; [constructor|]. intros Hn. cbn [map] in Hn. apply NoDup_cons in Hn as [H1 H2].
    rewrite filter_cons. destruct (decide _); cbn [map]; [|by apply IH]. constructor; [|by apply IH]. intros Hin. apply H1. apply elem_of_list_fmap in Hin as (q & -> & Hq).
    apply elem_of_list_filter in Hq as [_ Hq]. apply elem_of_list_fmap. by exists q. }
  destruct (made_over (map fst (order (map sym_type (Smtlib_Model.i_bools r)))) (map (fun p => (fst p, (None, None))) (order (map sym_type (Smtlib_Model.i_reals r))))) as (d & Ed & Hd & _).
  { rewrite map_map. cbn. apply NoDup_app. split; [apply Hnd; by rewrite HB, declared_bools_names|]. split.
    - intros x Hx Hx'. apply E1, declared_elem in Hx. apply E2, declared_elem in Hx'. pose proof (Huniq _ _ Hx Hx' eq_refl). done.
    - apply Hnd. by rewrite HR, declared_numbers_names. }
  rewrite Ed. cbn [rbind]. eexists. split; [reflexivity|]. cbn [n_dom n_support n_weight n_queries].
  assert (over d (declared Smtlib_Spec.KBool cs) (map (fun x => (x, (None, None))) (declared Smtlib_Spec.KNum cs))) as HV.
  { eapply over_same; [exact Hd|exact E1|]. intros [x i]. rewrite !elem_of_list_fmap. split.
    - intros ([y t] & [= -> ->] & Hy). exists y. split; [done|]. apply E2. apply elem_of_list_fmap. by exists (y, t).
    - intros (y & [= -> ->] & Hy). apply E2 in Hy. apply elem_of_list_fmap in Hy as ([z t] & -> & Hz). by exists (z, t). }
  split; [done|]. split; [exact HA|]. split; [exact HW|]. split; [exact HQ|]. intros e e' [S1 S2]. destruct HV as (W & V1 & V2 & V3). cbn [n_dom] in *.
  assert (forall t v, Smtlib_Spec.meaning (Smtlib_Spec.signature [] [] cs) e t v -> Smtlib_Spec.meaning (Smtlib_Spec.signature [] [] cs) e' t v) as Hag.
  { apply meaning_agree.
    - intros x Hx. apply S1, V1. by apply declared_elem.
    - intros x Hx. apply S2, V2. rewrite map_map. cbn. rewrite map_id. by apply declared_elem. }
  assert (forall cs1 c cs2, cs = cs1 ++ c :: cs2 -> forall t v, Smtlib_Spec.meaning (Smtlib_Spec.signature [] [] cs1) e t v ->
    Smtlib_Spec.meaning (Smtlib_Spec.signature [] [] cs) e t v) as Hsub.
  { intros cs1 c cs2 -> t v. apply sub_meaning. intros p Hp. rewrite signature_app. apply elem_of_app. by left. }
  assert (forall cs1 c cs2 (Q : Smtlib_Model.command -> Prop), cs = cs1 ++ c :: cs2 -> Smtlib_Model.parse fl simp [] [] (cs1 ++ c :: cs2) = Ok r) as Hsplit by (by intros cs1 c cs2 _ <-).
  rewrite Forall_forall in HG. rewrite Forall_forall in HE.
  assert (forall t, t ∈ Smtlib_Spec.asserted cs -> exists b, Smtlib_Spec.meaning (Smtlib_Spec.signature [] [] cs) e t (VB b)) as MA.
  { intros t Ht. assert (t ∈ terms cs) as Ht' by (apply elem_of_app; by left). destruct (in_commands _ _ _ Ht) as (cs1 & c & cs2 & E & Hin).
    pose proof (Smtlib_Props.smtlib_ill_typed_rejected_partial fl simp [] [] cs1 c cs2 r HK (Hsplit _ _ _ (fun _ => True) E)) as Hcmd. cbn zeta in Hcmd.
    destruct c; cbn in Hin; try (by apply elem_of_nil in Hin). apply elem_of_list_singleton in Hin as ->.
    destruct (Hcmd (HG _ Ht') (HE _ Ht') e) as [b Hb]. exists b. by eapply Hsub. }
  cbn [n_support n_weight n_queries]. split_and!.
  - assert (exists bs, Forall2 (fun t b => Smtlib_Spec.meaning (Smtlib_Spec.signature [] [] cs) e t (VB b)) (Smtlib_Spec.asserted cs) bs) as [bs Hbs].
    { clear -MA. induction (Smtlib_Spec.asserted cs) as [|t ts IH]; [by exists []|]. destruct (MA t ltac:(by left)) as [b Hb].
      destruct IH as [bs Hbs]; [intros u Hu; apply MA; by right|]. exists (b :: bs). by constructor. }
    rewrite (HA e bs Hbs). symmetry. apply HA. clear -Hbs Hag. induction Hbs; constructor; auto.
  - destruct HW as [[_ HW]|(t & Ht & HW)]; [by rewrite !HW|].
    assert (t ∈ Smtlib_Spec.weights cs) as Hin by (rewrite Ht; by left). assert (t ∈ terms cs) as Ht' by (unfold terms; rewrite !elem_of_app; auto).
    destruct (in_commands _ _ _ Hin) as (cs1 & c & cs2 & E & Hin').
    pose proof (Smtlib_Props.smtlib_ill_typed_rejected_partial fl simp [] [] cs1 c cs2 r HK (Hsplit _ _ _ (fun _ => True) E)) as Hcmd. cbn zeta in Hcmd.
    destruct c; cbn in Hin'; try (by apply elem_of_nil in Hin'). apply elem_of_list_singleton in Hin' as ->.
    destruct (Hcmd (HG _ Ht') (HE _ Ht') e) as [q Hq]. apply (Hsub _ _ _ E) in Hq. rewrite (HW e _ Hq). symmetry. by apply HW, Hag.
  - assert (forall t, t ∈ Smtlib_Spec.queried cs -> exists v, Smtlib_Spec.meaning (Smtlib_Spec.signature [] [] cs) e t v) as MQ.
    { intros t Ht. assert (t ∈ terms cs) as Ht' by (unfold terms; rewrite !elem_of_app; auto). destruct (in_commands _ _ _ Ht) as (cs1 & c & cs2 & E & Hin).
      pose proof (Smtlib_Props.smtlib_ill_typed_rejected_partial fl simp [] [] cs1 c cs2 r HK (Hsplit _ _ _ (fun _ => True) E)) as Hcmd. cbn zeta in Hcmd.
      destruct c; cbn in Hin; try (by apply elem_of_nil in Hin). apply elem_of_list_singleton in Hin as ->.
      destruct (Hcmd (HG _ Ht') (HE _ Ht') e) as [b Hb]. exists b. by eapply Hsub. }
    clear -HQ MQ Hag. induction HQ as [|t f ts fs Hf HQ IH]; [constructor|]. constructor; [|apply IH; intros u Hu; apply MQ; by right].
    destruct (MQ t ltac:(by left)) as [v Hv]. rewrite (Hf e v Hv). symmetry. by apply Hf, Hag.
Qed.
Print Assumptions C67_smt_partial.

Definition ex_src : sources := Sources (fun _ => Some ["(ite (var bool A_0) (const real 1) (var real x_0))"%string])
  (fun f => if decide (f = "m.support"%string) then Some (Ok (PlusN [Sym "x_0" TReal; Sym "x_0" TReal])) else None)
  (fun _ => Err ValueError) (fun _ => Err ValueError) (fun _ => Ok Smtlib_Props.file) ex_files.
Definition ex_order (l : list (string * ty)) : list (string * ty) := remove_dups l.
Lemma ex_order_iterates : iterates ex_order.
Proof. intros l. split; [apply NoDup_remove_dups|]. intros x. apply elem_of_remove_dups. Qed.
Example C67_smt_nonvacuous : iterates ex_order /\ src_smtlib ex_src "f" = Ok Smtlib_Props.file /\
  Forall Smtlib_Spec.regular (terms Smtlib_Props.file) /\ Forall (Smtlib_Spec.exact_decimals Smtlib_Props.id_fl) (terms Smtlib_Props.file) /\
  (exists r, Smtlib_Model.parse Smtlib_Props.id_fl Smtlib_Props.id_simp [] [] Smtlib_Props.file = Ok r) /\
  declared Smtlib_Spec.KBool Smtlib_Props.file = ["A"%string] /\ declared Smtlib_Spec.KNum Smtlib_Props.file = ["n"%string; "x"%string].
Proof.
  destruct Smtlib_Props.smtlib_case as (_ & HG & HE & r & Hr & _). split; [apply ex_order_iterates|]. split; [done|].
  split; [|split; [exact HE|split; [exists r; exact Hr|split; vm_compute; reflexivity]]].
  apply Forall_forall. intros t Ht. apply (proj1 (Forall_forall _ _) HG). clear -Ht. unfold terms in Ht.
  change (t ∈ [Smtlib_Props.t1; Smtlib_Props.t2; Smtlib_Props.t4; Smtlib_Props.t3]) in Ht. rewrite !elem_of_cons in *. tauto.
Qed.

(** The type of a variable is not kept: an integer becomes a real, although it is an
    integer in the formulas. *)
Theorem C67_int_refuted : exists src n, let cs := Smtlib_Props.file in
  src_smtlib src "f" = Ok cs /\ Smtlib_Model.CDeclareConst "n" "Int" ∈ cs /\
  import_density (fun _ => None) (fun _ => None) id id id src 0 "f" (Some "smt"%string) = Ok n /\
  ("n"%string, TReal) ∈ d_types (n_dom n) /\ ("n"%string, TInt) ∈ free_vars (n_support n).
Proof.
  exists ex_src. eexists. split; [done|]. split; [by left|]. split; [vm_compute; reflexivity|]. split.
  - right. left.
  - apply elem_of_list_In. vm_compute. tauto.
Qed.
Print Assumptions C67_int_refuted.
Example C67_int_case : Smtlib_Model.CDeclareConst "n" "Int" ∈ Smtlib_Props.file.
Proof. by left. Qed.

(** * MiniZinc files *)

(** A MiniZinc file that is read gives a density over its decision variables, with their
    intervals; the formulas are those of the file and depend on these variables only. *)
Theorem C67_mzn read to_int fl simp order src fuel name its r :
  keeps_value simp -> iterates order -> src_mzn src name = Some its -> parse_minizinc fl simp (src_mzn src) fuel its = Ok r ->
  exists n flat, import_density read to_int fl simp order src fuel name (Some "mzn"%string) = Ok n /\
    Minizinc_Spec.expands (src_mzn src) its flat /\ closed n /\ forall e, exists o,
      Minizinc_Spec.runs fl e Minizinc_Spec.no_names flat o /\
      over (n_dom n) (Minizinc_Spec.o_bools o) (map (fun p => (fst (fst p), snd p)) (Minizinc_Spec.o_numbers o)) /\
      eval e (n_support n) = Some (VB (forallb id (Minizinc_Spec.o_support o))) /\
      eval e (n_weight n) = Some (VN (qprod (Minizinc_Spec.o_weights o))) /\
      Forall2 (fun f b => eval e f = Some (VB b)) (n_queries n) (Minizinc_Spec.o_queries o).
Proof.
  intros Hs HO Hf Hr. cbn [import_density]. unfold import_mzn. rewrite Hf. cbn [rbind]. rewrite Hr. cbn [rbind].
  destruct (C65_meaning fl simp _ _ _ _ Hs Hr) as (flat & Hx & Hm). pose proof (C65_distinct _ _ _ _ _ _ Hr) as ND.
  assert (map (fun p => fst (sym_type (fst p))) (mi_reals r) = map sym_name (map fst (mi_reals r))) as En.
  { destruct (Hm (Env (fun _ => true) (fun _ => 0%Qc))) as (o & _ & _ & HF & _). clear -HF. induction HF as [|p q ps qs Hp HF IH]; [done|]. cbn. f_equal; [|exact IH].
    destruct q as [[x t] i]. destruct Hp as (_ & t' & -> & _). done. }
  assert (forall x, x ∈ map fst (order (map sym_type (mi_bools r))) <-> x ∈ map sym_name (mi_bools r)) as Eb.
  { intros x. assert (map fst (map sym_type (mi_bools r)) = map sym_name (mi_bools r)) as <-.
    { rewrite map_map. apply map_ext. by intros []. }
    rewrite !elem_of_list_fmap. destruct (HO (map sym_type (mi_bools r))) as [_ HO']. split; intros (p & -> & Hp); exists p; split; try done; by apply HO'. }
  destruct (made_over (map fst (order (map sym_type (mi_bools r)))) (map (fun p => (fst (sym_type (fst p)), snd p)) (mi_reals r))) as (d & Ed & Hd & _).
  { apply NoDup_app in ND as (N1 & N2 & N3). rewrite map_map. cbn. rewrite En. apply NoDup_app. split; [|split; [|done]].
    - destruct (HO (map sym_type (mi_bools r))) as [O1 O2].
      assert (forall p, p ∈ order (map sym_type (mi_bools r)) -> snd p = TBool) as HT.
      { intros p Hp. apply O2 in Hp. destruct (Hm (Env (fun _ => true) (fun _ => 0%Qc))) as (o & _ & HB & _). rewrite HB, map_map in Hp. cbn in Hp.
        by apply elem_of_list_fmap in Hp as (x & -> & _). }
      clear -O1 HT. induction O1 as [|p ps Hp O1 IH]; [constructor|]. cbn. constructor; [|apply IH; intros q Hq; apply HT; by right].
      intros Hin. apply elem_of_list_fmap in Hin as (q & E & Hq). apply Hp. destruct p as [x t], q as [y t']. cbn in E. subst y.
      pose proof (HT (x, t) ltac:(by left)) as T1. pose proof (HT (x, t') ltac:(by right)) as T2. cbn in *. by subst.
    - intros x Hx1 Hx2. apply Eb in Hx1. by apply (N2 x). }
  rewrite Ed. cbn [rbind]. eexists _, flat. split; [reflexivity|]. split; [done|]. cbn [n_dom n_support n_weight n_queries].
  assert (forall e, exists o, Minizinc_Spec.runs fl e Minizinc_Spec.no_names flat o /\
      over d (Minizinc_Spec.o_bools o) (map (fun p => (fst (fst p), snd p)) (Minizinc_Spec.o_numbers o)) /\
      eval e (mi_support r) = Some (VB (forallb id (Minizinc_Spec.o_support o))) /\
      eval e (mi_weight r) = Some (VN (qprod (Minizinc_Spec.o_weights o))) /\
      Forall2 (fun f b => eval e f = Some (VB b)) (mi_queries r) (Minizinc_Spec.o_queries o)) as HA.
  { intros e. destruct (Hm e) as (o & Ho & HB & HN & HS & HW & HQ). exists o. split; [done|]. split; [|done]. eapply over_same; [exact Hd| |].
    - intros x. rewrite Eb, HB, map_map. cbn. by rewrite map_id.
    - assert (map (fun p => (fst (sym_type (fst p)), snd p)) (mi_reals r) = map (fun p => (fst (fst p), snd p)) (Minizinc_Spec.o_numbers o)) as ->; [|done].
      clear -HN. induction HN as [|p q ps qs Hp HF IH]; [done|]. cbn. f_equal; [|exact IH]. destruct q as [[x t] i]. destruct Hp as (-> & t' & -> & _). done. }
  split; [|done]. intros e e' [S1 S2]. cbn [n_dom n_support n_weight n_queries] in *. destruct (HA e) as (o & Ho & (W & V1 & V2 & V3) & HS & HW & HQ). destruct (HA e') as (o' & Ho' & _ & HS' & HW' & HQ').
  assert (Minizinc_Spec.runs fl e' Minizinc_Spec.no_names flat o) as Ho2.
  { apply (runs_agree fl e e'); [done| |].
    - intros x Hx'. by apply S1, V1.
    - intros x t i Hx'. apply S2, V2. rewrite map_map. cbn. apply elem_of_list_fmap. by exists (x, t, i). }
  pose proof (proj2 C65_unique _ _ _ _ _ _ Ho' Ho2) as ->. rewrite HS, HS', HW, HW'. split; [done|]. split; [done|].
  clear -HQ HQ'. revert HQ'. induction HQ as [|f b fs bs Hf HQ IH]; intros HQ'; [constructor|]. inversion HQ' as [|? ? ? ? Hf' HQ'']; subst. constructor; [congruence|by apply IH].
Qed.
Print Assumptions C67_mzn.
Example C67_mzn_nonvacuous : keeps_value fold_closed /\ iterates ex_order /\ src_mzn (Sources (fun _ => None) (fun _ => None) (fun _ => Err ValueError) (fun _ => Err ValueError) (fun _ => Err ValueError) (fun _ => Some ex_plain)) "f" = Some ex_plain /\
  exists r, parse_minizinc id fold_closed (fun _ => Some ex_plain) 1 ex_plain = Ok r /\ map sym_name (mi_bools r) = ["a"%string].
Proof. split; [apply fold_closed_value|]. split; [apply ex_order_iterates|]. split; [done|]. eexists. split; [vm_compute; reflexivity|done]. Qed.

(** * The three files of wmi_generate *)

(** Every boolean and real variable of the three formulas is in the domain, reals between
    0 and 1; without integers the formulas depend on the domain only. *)
Theorem C67_tree_partial read to_int fl simp order src fuel name q s w :
  iterates order -> one_type (free_vars q ++ free_vars s ++ free_vars w) -> no_ints (free_vars q ++ free_vars s ++ free_vars w) ->
  src_smt2 src (name +:+ ".query") = Some (Ok q) -> src_smt2 src (name +:+ ".support") = Some (Ok s) -> src_smt2 src (name +:+ ".weights") = Some (Ok w) ->
  exists n bools reals, import_density read to_int fl simp order src fuel name (Some "wmi_generate_tree"%string) = Ok n /\
    n_support n = s /\ n_weight n = w /\ n_queries n = [q] /\
    (forall x, x ∈ bools <-> (x, TBool) ∈ free_vars q ++ free_vars s ++ free_vars w) /\
    (forall x, x ∈ reals <-> (x, TReal) ∈ free_vars q ++ free_vars s ++ free_vars w) /\
    over (n_dom n) bools (map (fun x => (x, (Some 0%Qc, Some 1%Qc))) reals) /\ closed n.
Proof.
  intros HO H1 HI Hq Hs Hw. set (vs := free_vars q ++ free_vars s ++ free_vars w) in *. cbn [import_density]. unfold import_tree, smt2. rewrite Hq, Hs, Hw. cbn [rbind].
  unfold three_vars. fold vs. destruct (HO vs) as [O1 O2].
  assert (forall t x, x ∈ names_with t (order vs) <-> (x, t) ∈ vs) as Hn.
  { intros t x. unfold names_with. rewrite elem_of_list_fmap. split.
    - intros ([y t'] & -> & Hp). apply elem_of_list_filter in Hp as [E Hp]. cbn in *. subst. by apply O2.
    - intros Hx. exists (x, t). split; [done|]. apply elem_of_list_filter. split; [done|by apply O2]. }
  assert (forall t, NoDup (names_with t (order vs))) as HN.
  { intros t. unfold names_with. clear -O1. induction O1 as [|p ps Hp O1 IH]; [constructor|]. rewrite filter_cons. destruct (decide _) as [E|]; cbn [map]; [|done].
    constructor; [|done]. intros Hin. apply elem_of_list_fmap in Hin as (p' & E' & Hp'). apply elem_of_list_filter in Hp' as [E2 Hp']. apply Hp. destruct p, p'. cbn in *. by subst. }
  destruct (made_over (names_with TBool (order vs)) (map (fun x => (x, (Some 0%Qc, Some 1%Qc))) (names_with TReal (order vs)))) as (d & Ed & Hd & _).
  { rewrite map_map. cbn. rewrite map_id. apply NoDup_app. split; [done|]. split; [|done]. intros x Hb Hr. apply Hn in Hb, Hr. by pose proof (H1 _ _ _ Hb Hr). }
  rewrite Ed. cbn [rbind]. eexists _, _, _. split; [reflexivity|]. cbn [n_dom n_support n_weight n_queries]. do 3 (split; [done|]).
  split; [exact (Hn TBool)|]. split; [exact (Hn TReal)|]. split; [exact Hd|].
  intros e e' [S1 S2]. cbn [n_dom n_support n_weight n_queries] in *. destruct Hd as (W & V1 & V2 & _).
  assert (forall f, (forall p, p ∈ free_vars f -> p ∈ vs) -> eval e f = eval e' f) as HE.
  { intros f Hf. apply eval_free.
    - intros x Hx. apply S1, V1, Hn. by apply Hf.
    - intros x t Hx Ht. apply S2, V2. rewrite map_map. cbn. rewrite map_id. apply Hn. destruct t; [done|by apply Hf|]. by destruct (HI x (Hf _ Hx)). }
  unfold vs in HE. split; [|split; [|constructor; [|constructor]]]; apply HE; intros p Hp; rewrite !elem_of_app; auto.
Qed.
Print Assumptions C67_tree_partial.

(** An integer variable is left out of the domain, so the support depends on a variable
    the domain does not have. *)
Theorem C67_tree_int_refuted : exists src n,
  import_density (fun _ => None) (fun _ => None) id id id src 0 "m" (Some "wmi_generate_tree"%string) = Ok n /\ d_vars (n_dom n) = [] /\ ~ closed n.
Proof.
  exists (Sources (fun _ => None) (fun _ => Some (Ok (LtN (Sym "n" TInt) (IntC 1)))) (fun _ => Err ValueError) (fun _ => Err ValueError) (fun _ => Err ValueError) (fun _ => None)).
  eexists. split; [vm_compute; reflexivity|]. split; [done|]. intros H.
  destruct (H (Env (fun _ => true) (fun _ => 0%Qc)) (Env (fun _ => true) (fun _ => 1%Qc))) as [E _]; [split; intros x Hx; by apply elem_of_nil in Hx|]. vm_compute in E. done.
Qed.
Print Assumptions C67_tree_int_refuted.
Example C67_tree_nonvacuous : exists q s w : fm, iterates ex_order /\ one_type (free_vars q ++ free_vars s ++ free_vars w) /\ no_ints (free_vars q ++ free_vars s ++ free_vars w) /\
  (("a"%string, TBool) ∈ free_vars q ++ free_vars s ++ free_vars w) /\ (("x"%string, TReal) ∈ free_vars q ++ free_vars s ++ free_vars w).
Proof.
  exists (Sym "a" TBool), (LeN (Sym "x" TReal) (RealC 1)), (Sym "x" TReal). split; [apply ex_order_iterates|]. cbn. split; [|split].
  - intros x t t' H1 H2. rewrite !elem_of_cons, elem_of_nil in H1, H2. destruct H1 as [[= -> ->]|[[= -> ->]|[[= -> ->]|[]]]], H2 as [[= ]|[[= ]|[[= ]|[]]]]; by subst.
  - intros x Hx. rewrite !elem_of_cons, elem_of_nil in Hx. destruct Hx as [[=]|[[=]|[[=]|[]]]].
  - split; [by left|right; by left].
Qed.

(** wmi_generate_100 never gives a density: the bounds are given without the variables
    they are for. *)
Theorem C67_100_refuted read to_int fl simp order src fuel name :
  (forall n, import_density read to_int fl simp order src fuel name (Some "wmi_generate_100"%string) <> Ok n) /\
  (forall q s w, src_smt2 src (name +:+ ".query") = Some (Ok q) -> src_smt2 src (name +:+ ".support") = Some (Ok s) -> src_smt2 src (name +:+ ".weights") = Some (Ok w) ->
    import_density read to_int fl simp order src fuel name (Some "wmi_generate_100"%string) = Err TypeError).
Proof.
  cbn [import_density]. unfold import_100, smt2. split.
  - intros n. destruct (src_smt2 src (name +:+ ".query")) as [[]|]; try done. cbn [rbind]. destruct (src_smt2 src (name +:+ ".support")) as [[]|]; try done. cbn [rbind].
    by destruct (src_smt2 src (name +:+ ".weights")) as [[]|].
  - intros q s w -> -> ->. done.
Qed.
Print Assumptions C67_100_refuted.
Example C67_100_case : src_smt2 (Sources (fun _ => None) (fun _ => Some (Ok (Sym "a" TBool))) (fun _ => Err ValueError) (fun _ => Err ValueError) (fun _ => Err ValueError) (fun _ => None)) ("m" +:+ ".query") = Some (Ok (Sym "a" TBool)).
Proof. done. Qed.

(** * The mspn files *)

(** The numbers of real and boolean variables are read from the name of the file; the
    variables are A_0, A_1, ... and x_0, x_1, ... with x_i between 0 and 1. *)
Definition mspn_over (d : domain) (reals bools : nat) : Prop :=
  over d (map (fun i => "A_" +:+ NilZero.string_of_uint (Nat.to_uint i)) (seq 0 bools))
         (map (fun i => ("x_" +:+ NilZero.string_of_uint (Nat.to_uint i), (Some 0%Qc, Some 1%Qc))) (seq 0 reals)) /\
  length (d_vars d) = (bools + reals)%nat.

Lemma mspn_made to_int name p1 p2 r b : file_fields name p1 p2 -> to_int p1 = Some (Z.of_nat r) -> to_int p2 = Some (Z.of_nat b) ->
  exists d, mspn_domain to_int name = Ok d /\ mspn_over d r b.
Proof.
  intros (dir & p0 & rst & L0 & L1 & L2 & LS & Hn) H1 H2.
  assert (split_on "_" (basename name) = p0 :: p1 :: p2 :: split_on "_" rst) as E.
  { assert (basename name = p0 +:+ "_" +:+ p1 +:+ "_" +:+ p2 +:+ "_" +:+ rst) as ->.
    { destruct Hn as [-> | ->]; [by apply basename_plain|by apply basename_dir]. }
    cbn. by rewrite !split_on_first. }
  unfold mspn_domain, part. rewrite E. cbn. rewrite H1, H2. cbn [rbind]. rewrite !Nat2Z.id.
  destruct (made_over (numbered "A_" b) (map (fun x => (x, (Some 0%Qc, Some 1%Qc))) (numbered "x_" r))) as (d & Ed & Hd & Hv).
  { rewrite map_map. cbn. rewrite map_id. apply numbered_nodup. }
  exists d. rewrite dset_all_fresh in Ed.
  - split; [exact Ed|]. split; [|rewrite Hv, app_length, !map_map; unfold numbered; rewrite !map_length, !seq_length; done].
    unfold numbered in Hd. rewrite map_map in Hd. exact Hd.
  - cbn. rewrite map_map. cbn. rewrite map_id. pose proof (numbered_nodup b r) as N. by apply NoDup_app in N as (_ & _ & N).
Qed.

Theorem C67_xadd_mspn read to_int fl simp order src fuel name p1 p2 r b l ls w :
  file_fields name p1 p2 -> to_int p1 = Some (Z.of_nat r) -> to_int p2 = Some (Z.of_nat b) ->
  src_lines src name = Some (l :: ls) -> nested_to_smt read l = Ok w ->
  exists d, import_density read to_int fl simp order src fuel name (Some "xadd_mspn"%string) = Ok (Density d (BoolC true) w [BoolC true]) /\ mspn_over d r b.
Proof.
  intros HF H1 H2 Hl Hw. destruct (mspn_made to_int name p1 p2 r b HF H1 H2) as (d & Ed & Hd). exists d. split; [|done].
  cbn [import_density]. unfold import_xadd_mspn. rewrite Ed, Hl. cbn [rbind]. by rewrite Hw.
Qed.
Print Assumptions C67_xadd_mspn.

(** A file that is not there stands for the trivial query and for the weight 1. *)
Theorem C67_wmi_mspn read to_int fl simp order src fuel name p1 p2 r b s :
  file_fields name p1 p2 -> to_int p1 = Some (Z.of_nat r) -> to_int p2 = Some (Z.of_nat b) ->
  src_smt2 src (name +:+ ".support") = Some (Ok s) ->
  exists d, mspn_over d r b /\ forall q w,
    (src_smt2 src (name +:+ ".query") = None /\ q = BoolC true \/ src_smt2 src (name +:+ ".query") = Some (Ok q)) ->
    (src_smt2 src (name +:+ ".weight") = None /\ w = RealC 1 \/ src_smt2 src (name +:+ ".weight") = Some (Ok w)) ->
    import_density read to_int fl simp order src fuel name (Some "wmi_mspn"%string) = Ok (Density d s w [q]).
Proof.
  intros HF H1 H2 Hs. destruct (mspn_made to_int name p1 p2 r b HF H1 H2) as (d & Ed & Hd). exists d. split; [done|].
  intros q w Hq Hw. cbn [import_density]. unfold import_wmi_mspn, smt2.
  destruct Hq as [[-> ->] | ->]; cbn [rbind]; rewrite Hs; cbn [rbind]; destruct Hw as [[-> ->] | ->]; cbn [rbind]; by rewrite Ed.
Qed.
Print Assumptions C67_wmi_mspn.
Example C67_mspn_nonvacuous : file_fields "data/xadd_2_1_7.txt" "2" "1" /\ exists w, nested_to_smt (fun _ => None) "(var real x_0)" = Ok w.
Proof.
  split; [|eexists; vm_compute; reflexivity]. exists "data"%string, "xadd"%string, "7.txt"%string.
  unfold lacks. split_and!; try (cbn; rewrite ?not_elem_of_cons; repeat split; try done; apply not_elem_of_nil). by right.
Qed.

(** * Synthetic problems *)

(** The support is the theory of the file inside the box of its domain. *)
Theorem C67_synthetic read to_int fl simp order src fuel name st t d f :
  src_synthetic src name = Ok (st, t) -> dom_from_state st = Ok d -> nested_to_smt read t = Ok f -> wf_domain d -> float_bounds fl d ->
  exists s, import_density read to_int fl simp order src fuel name (Some "smt_synthetic"%string) = Ok (Density d s (RealC 1) [BoolC true]) /\ restricted d f s.
Proof.
  intros Hs Hd Hf W HB. cbn [import_density]. unfold import_smt_synthetic. rewrite Hs. cbn [rbind fst snd]. rewrite Hd. cbn [rbind]. rewrite Hf. cbn [rbind].
  destruct (support_bounded fl d f W HB) as (s & Es & Hr). unfold External_Model.support_of in Es. destruct (get_bounds fl d) as [g|]; [|done]. cbn [rbind] in *.
  eexists. split; [reflexivity|]. injection Es as <-. exact Hr.
Qed.
Print Assumptions C67_synthetic.
Example C67_synthetic_nonvacuous : exists st f, dom_from_state st = Ok ex_dom /\ wf_domain ex_dom /\ nested_to_smt (fun _ => None) "(var bool a)" = Ok f.
Proof.
  destruct (C14_domain_roundtrip ex_dom) as (st & _ & Hst). { intros v t Hv. cbn in Hv. rewrite !elem_of_cons in Hv. repeat destruct Hv as [[= -> ->]|Hv]; try tauto. by apply elem_of_nil in Hv. }
  exists st. eexists. split; [done|]. split; [apply ex_dom_wf|]. vm_compute. reflexivity.
Qed.

(** * Dialects *)

Theorem C67_dialects read to_int fl simp order src fuel name :
  (forall dialect, dialect ∉ ["xadd_mspn"; "wmi_mspn"; "smt_synthetic"; "wmi_generate_tree"; "wmi_generate_100"; "smt"; "mzn"]%string ->
     import_density read to_int fl simp order src fuel name (Some dialect) = Err ValueError) /\
  (forall s n, src_state src name = Ok s -> den_from_state read s = Ok n -> import_density read to_int fl simp order src fuel name None = Ok n).
Proof.
  split.
  - intros dialect H. rewrite !not_elem_of_cons in H. destruct H as (H1 & H2 & H3 & H4 & H5 & H6 & H7 & _). unfold import_density.
    repeat match goal with |- context [match ?x with _ => _ end] => is_var x; destruct x end; try done; exfalso; congruence.
  - intros s n Hs Hn. cbn. by rewrite Hs.
Qed.
Print Assumptions C67_dialects.
Example C67_dialects_nonvacuous : "json"%string ∉ ["xadd_mspn"; "wmi_mspn"; "smt_synthetic"; "wmi_generate_tree"; "wmi_generate_100"; "smt"; "mzn"]%string.
Proof. rewrite !not_elem_of_cons. repeat split; try done. apply not_elem_of_nil. Qed.
