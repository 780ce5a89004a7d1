(** C69: computing with diagrams through the algebra interface.  All statements are
    about pools reached by any history of requests (Xadd_Spec). *)

From Verif Require Import Base Dict Smt Smt_Facts Math_Model Math_Spec Poly_Proofs Arith_Proofs Linear_Proofs
  Piecewise_Spec Domain_Model Integral_Spec Integral_Proofs Xadd_Model Resolve_Model Xadd_Spec Resolve_Spec
  Xadd_Proofs Resolve_Proofs Xhist_Proofs Xreq_Proofs Resolve_Props Volume_Model Volume_Spec Volume_Proofs Xalg_Model
  Xalg_Spec Xalg_Proofs.

Section Props.
  Context {E : Type} `{EqDecision E} (A : alg E) (flat : E -> E) (is_one is_zero : E -> Res bool) (simp : fm -> fm)
    (solve : list fm -> fm -> bool) (X : resolver E) (den : E -> env -> option Qc) (to_float : E -> Res Qc)
    (strat : bool * strategy).
  Notation reachable := (reachable A flat is_one is_zero simp solve X).
  Notation continues := (continues A flat is_one is_zero simp solve X).
  Notation build := (build A flat simp solve strat).

  (** Any expression of constants, variables, conditions, products, sums, negations and
      powers, with any reduction strategy, in any pool without a user-given ordering:
      the calls return a diagram, all nodes of the pool keep their content, and at every
      assignment on none of the hyperplanes the diagram has the value of the expression. *)
  Theorem C69_expressions_partial t p : sound_externals A flat simp solve den ->
    simp (LeN (RealC 0) (RealC 0)) = BoolC true -> reachable p -> p_ordering p = false ->
    Forall condition (conditions t) ->
    exists q r, build t p = (q, Ok r) /\ continues p q /\ keeps_nodes p q /\ is_Some (dget (p_nodes q) r) /\
      forall e, off_conditions e t -> denotes den (p_nodes q) e r (value e t).
  Proof.
    intros HX H0 Hr Ho Hc.
    destruct (build_ok A flat is_one is_zero simp solve X den strat HX H0 t Hc p (conj Hr Ho)) as (q & r & Hb & _ & Hx & Hco & Hd & Hv).
    exists q, r. split; [done|]. split; [done|]. split; [|done]. split; [apply (ex_nodes _ _ Hx)|].
    split; [apply (ex_zero _ _ Hx)|apply (ex_one _ _ Hx)].
  Qed.

  (** A negative exponent is refused, and nothing changes. *)
  Theorem C69_negative_power a n p : (n < 0)%Z -> xa_power A flat simp solve strat a n p = (p, Err ValueError).
  Proof. intros Hn. unfold xa_power. by replace (n <? 0)%Z with true by (symmetry; by apply Z.ltb_lt). Qed.

  (** Integration over a non-empty list of different real variables, for a diagram that
      is zero outside a box: the result has at every assignment a value, and it is the
      iterated integral of the diagram over the box. *)
  Theorem C69_integrate_partial d p id xs : sound_externals A flat simp solve den -> resolve_externals simp X den ->
    reachable p -> p_ordering p = false -> is_Some (dget (p_nodes p) id) ->
    let vs := map (fun '(x, _, _) => x) xs in
    vs <> [] -> NoDup vs -> Forall (fun v => is_Some (dget (d_types d) v)) vs ->
    (forall x lo hi, (x, lo, hi) ∈ xs -> rs_type X x = TReal /\ rs_str X x = x /\ (lo <= hi)%Qc /\
       forall e y, (er e x < lo \/ hi < er e x)%Qc -> denotes den (p_nodes p) e id y -> y = 0%Qc) ->
    exists q r, xa_integrate A flat simp solve X strat d id (Some vs) p = (q, Ok r) /\
      forall e, exists v, denotes den (p_nodes q) e r v /\
        iterated (fun e y => denotes den (p_nodes p) e id y) (rev xs) e v.
  Proof.
    intros HX HE Hr Ho Hd vs Hne Hnd Hty Hxs. pose proof (reachable_RI A flat is_one is_zero simp solve X den p HX Hr) as HR.
    rewrite Ho in HR.
    destruct (reals_ok A flat simp solve X den HX HE strat.2 (fun e y => denotes den (p_nodes p) e id y) [] xs (List.Forall_nil _) []
      p id HR Hd Hnd Hxs) as (q & r & Hi & HRq & _ & Dr & Hv).
    { intros e v _ Hv. done. }
    exists q, r. split.
    - unfold xa_integrate, xa_variables. fold vs in Hi. change (names_of xs) with vs in Hi. destruct vs as [|v vs']; [done|].
      rewrite integrate_list_all; [done|done].
    - intros e. destruct (poly_total A simp den q (proj1 HRq) (re_poly _ _ _ HE) r Dr e) as [v Hv'].
      exists v. split; [done|]. apply (Hv e v); [constructor|done].
  Qed.

  (** A name that is not in the domain: never a diagram, and KeyError when it comes first. *)
  Theorem C69_unknown_variable d p id vs v : v ∈ vs -> dget (d_types d) v = None ->
    is_ok (xa_integrate A flat simp solve X strat d id (Some vs) p).2 = false /\
    (forall ws, vs = v :: ws -> xa_integrate A flat simp solve X strat d id (Some vs) p = (p, Err KeyError)).
  Proof.
    intros Hin Hv. assert (forall vs id p, v ∈ vs -> is_ok (xa_integrate_list A flat simp solve X strat d vs id p).2 = false) as HL.
    { clear -Hv. induction vs as [|w vs IH]; intros id p Hin; [by apply elem_of_nil in Hin|]. cbn [xa_integrate_list].
      unfold get_symbol, ditem. apply elem_of_cons in Hin as [<-|Hin]; [by rewrite Hv|].
      destruct (dget (d_types d) w); [|done]. cbn. unfold mbind. cbn. destruct (integrate _ _ _ _ _ _ _ _ _) as [q [r|]]; [by apply IH|done]. }
    unfold xa_integrate, xa_variables. destruct vs as [|w vs]; [by apply elem_of_nil in Hin|]. split; [by apply HL|].
    intros ws [= -> ->]. cbn [xa_integrate_list]. unfold get_symbol, ditem. by rewrite Hv.
  Qed.

  (** A number that is read off is the value of the diagram everywhere; a diagram that is
      not a leaf is refused. *)
  Theorem C69_to_float p id : (forall x v, to_float x = Ok v -> forall e, den x e = Some v) ->
    (xa_to_float to_float id p).1 = p /\
    (forall v, (xa_to_float to_float id p).2 = Ok v -> forall e, denotes den (p_nodes p) e id v) /\
    (forall dc ct cf, dget (p_nodes p) id = Some (INode dc ct cf) -> (xa_to_float to_float id p).2 = Err AssertionError).
  Proof.
    intros Hf. unfold xa_to_float, mbind, get_node. destruct (dget (p_nodes p) id) as [[x|? ? ?]|] eqn:En; cbn; [|done|done].
    split; [done|]. split; [|done]. intros v Hv e. eapply dn_leaf; [done|]. by apply Hf.
  Qed.
End Props.
Print Assumptions C69_expressions_partial.
Print Assumptions C69_negative_power.
Print Assumptions C69_integrate_partial.
Print Assumptions C69_unknown_variable.
Print Assumptions C69_to_float.

(** ** Concrete cases *)

(** (x - 1)^2 where 0 <= x <= y <= 1, with all reductions *)
Definition box69 : aexpr :=
  ETimes (EPower (EPlus (ESymbol "x") (ENegate EOne)) 2)
    (ETimes (ECond (LeN (RealC 0) RX)) (ETimes (ECond (LeN RX RY)) (ECond (LeN RY (RealC 1))))).
Definition full : bool * strategy := (true, FULL_REDUCE).
Notation pd_new := (new_pool pd_alg false).
Notation pd_build := (build pd_alg (fun p => p) simp1 sat_any full).
Notation pd_reachable := (reachable pd_alg (fun p => p) pd_one pd_zero simp1 sat_any pd_resolver).
Lemma new_reachable : pd_reachable pd_new.
Proof. exists []. constructor. Qed.
Lemma box69_conditions : Forall condition (conditions box69).
Proof.
  apply Forall_forall. intros f Hf. cbn in Hf. rewrite !elem_of_cons, elem_of_nil in Hf. right.
  destruct Hf as [->|[->|[->|[]]]]; eexists _, _; (split; [constructor|]); split; first [apply le_sym|do 2 constructor]. Qed.

Example C69_expressions_case : let e := Env (fun _ => true) (fun v => if bool_decide (v = "x"%string) then Q2Qc (1 # 2) else Q2Qc (3 # 4)) in
  Forall condition (conditions box69) /\ pd_reachable pd_new /\ off_conditions e box69 /\
  exists q r, pd_build box69 pd_new = (q, Ok r) /\ denotes pd_den (p_nodes q) e r (value e box69) /\ value e box69 = Q2Qc (1 # 4).
Proof.
  intros e. split; [exact box69_conditions|]. split; [exact new_reachable|]. assert (off_conditions e box69) as Hoff.
  { intros f a b Hf Hc. cbn in Hf. rewrite !elem_of_cons, elem_of_nil in Hf. destruct Hf as [->|[->|[->|[]]]];
      inversion Hc; subst; eexists _, _; (split; [reflexivity|]); (split; [reflexivity|]); by vm_compute. }
  split; [done|].
  destruct (C69_expressions_partial pd_alg (fun p => p) pd_one pd_zero simp1 sat_any pd_resolver pd_den full box69 pd_new
    pd_externals eq_refl new_reachable eq_refl box69_conditions) as (q & r & Hb & _ & _ & _ & Hv).
  exists q, r. split; [done|]. split; [by apply Hv|]. apply Qc_is_canon. reflexivity.
Qed.

(** 2x where 0 <= x <= 1 and 0 <= y <= 1 *)
Definition sq_pool : pool pdict := pd_after
  [TerminalR [(["x"%string], qz 2)]; InternalR (LeN (RealC 0) RX) 3 1; InternalR (LeN RX (RealC 1)) 4 1;
   InternalR (LeN (RealC 0) RY) 5 1; InternalR (LeN RY (RealC 1)) 6 1].
Lemma sq_reachable : pd_reachable sq_pool.
Proof. unfold sq_pool, pd_after. steps. Qed.
Definition dom69 : domain := Dom ["x"; "y"]%string [("x"%string, TReal); ("y"%string, TReal)]
  [("x"%string, (Some 0%Qc, Some 1%Qc)); ("y"%string, (Some 0%Qc, Some 1%Qc))].
Definition xs69 : list (string * Qc * Qc) := [("x"%string, 0%Qc, 1%Qc); ("y"%string, 0%Qc, 1%Qc)].
Lemma skip_zero (ns : list (nat * node pdict)) n d c e y : (forall z, denotes pd_den ns e 1 z -> z = 0%Qc) ->
  dget ns n = Some (INode d 1 c) -> denotes pd_den ns e n y -> y <> 0%Qc ->
  eval e (d_test d) = Some (VB false) /\ denotes pd_den ns e c y.
Proof.
  intros Hz Hn Hy H0. apply (denotes_node _ _ _ _ _ _ _ _ Hn) in Hy as (b & Eb & Hy). destruct b; [|done]. by apply Hz in Hy.
Qed.
Lemma sq_zero e y : denotes pd_den (p_nodes sq_pool) e 1 y -> y = 0%Qc.
Proof.
  assert (denotes pd_den (p_nodes sq_pool) e 1 0%Qc) as Hz by (eapply dn_leaf; [vm_compute; reflexivity|]; exact (pd_leaf _ _)).
  intros Hy. exact (denotes_fun _ _ _ _ _ _ Hy Hz).
Qed.
Lemma sq_inside e y : denotes pd_den (p_nodes sq_pool) e 7 y -> y <> 0%Qc ->
  (0 <= er e "x" <= 1)%Qc /\ (0 <= er e "y" <= 1)%Qc.
Proof.
  intros Hy H0.
  assert (forall z, dget (p_nodes sq_pool) 7 = Some z -> exists d, z = INode d 1 6 /\ d_test d = LtN (TimesN [RY; RealC (- (1))%Qc]) (RealC (- (1))%Qc)) as N7.
  { intros z Hz. vm_compute in Hz. injection Hz as <-. by eexists. }
  assert (forall z, dget (p_nodes sq_pool) 6 = Some z -> exists d, z = INode d 1 5 /\ d_test d = LtN RY (RealC 0)) as N6.
  { intros z Hz. vm_compute in Hz. injection Hz as <-. by eexists. }
  assert (forall z, dget (p_nodes sq_pool) 5 = Some z -> exists d, z = INode d 1 4 /\ d_test d = LtN (TimesN [RX; RealC (- (1))%Qc]) (RealC (- (1))%Qc)) as N5.
  { intros z Hz. vm_compute in Hz. injection Hz as <-. by eexists. }
  assert (forall z, dget (p_nodes sq_pool) 4 = Some z -> exists d, z = INode d 1 3 /\ d_test d = LtN RX (RealC 0)) as N4.
  { intros z Hz. vm_compute in Hz. injection Hz as <-. by eexists. }
  assert (forall n c (P : fm), (forall z, dget (p_nodes sq_pool) n = Some z -> exists d, z = INode d 1 c /\ d_test d = P) ->
    denotes pd_den (p_nodes sq_pool) e n y -> eval e P = Some (VB false) /\ denotes pd_den (p_nodes sq_pool) e c y) as Hstep.
  { pose proof (sq_zero e) as Hz. clear -Hz H0. generalize dependent (p_nodes sq_pool). intros ns Hz n c P HP Hd.
    assert (is_Some (dget ns n)) as [z Hn] by (inversion Hd; by eexists).
    destruct (HP z Hn) as (d & -> & <-). by apply (skip_zero ns n d c e y). }
  destruct (Hstep _ _ _ N7 Hy) as [E7 Y6]. destruct (Hstep _ _ _ N6 Y6) as [E6 Y5].
  destruct (Hstep _ _ _ N5 Y5) as [E5 Y4]. destruct (Hstep _ _ _ N4 Y4) as [E4 _].
  clear -E7 E6 E5 E4. cbn in E7, E6, E5, E4. injection E7 as E7. injection E6 as E6. injection E5 as E5. injection E4 as E4.
  apply qlt_false in E7, E6, E5, E4. repeat split; qclra.
Qed.

Lemma sq_box x lo hi : (x, lo, hi) ∈ xs69 -> rs_type pd_resolver x = TReal /\ rs_str pd_resolver x = x /\ (lo <= hi)%Qc /\
  forall e y, (er e x < lo \/ hi < er e x)%Qc -> denotes pd_den (p_nodes sq_pool) e 7 y -> y = 0%Qc.
Proof.
  intros Hin. unfold xs69 in Hin. rewrite !elem_of_cons, elem_of_nil in Hin.
  destruct Hin as [[= -> -> ->]|[[= -> -> ->]|[]]]; (split; [done|]); (split; [done|]); (split; [by vm_compute|]); intros e y Ho Hy;
    destruct (decide (y = 0%Qc)) as [|Hn]; try done; destruct (sq_inside e y Hy Hn) as [? ?]; exfalso; destruct Ho; qclra.
Qed.

(** The integral over x and y is 1. *)
Example C69_integrate_case : exists q,
  xa_integrate pd_alg (fun p => p) simp1 sat_any pd_resolver full dom69 7 (Some ["x"; "y"]%string) sq_pool = (q, Ok 2) /\
  forall e, iterated (fun e y => denotes pd_den (p_nodes sq_pool) e 7 y) (rev xs69) e 1%Qc.
Proof.
  destruct (C69_integrate_partial pd_alg (fun p => p) pd_one pd_zero simp1 sat_any pd_resolver pd_den full dom69 sq_pool 7 xs69
    pd_externals pd_resolves sq_reachable eq_refl) as (q & r & Hi & Hv).
  - vm_compute. by eexists.
  - done.
  - apply (bool_decide_unpack _). by vm_compute.
  - cbn. repeat constructor; by eexists.
  - exact sq_box.
  - change (map _ xs69) with ["x"; "y"]%string in Hi. exists q. assert (r = 2) as ->.
    { assert ((xa_integrate pd_alg (fun p => p) simp1 sat_any pd_resolver full dom69 7 (Some ["x"; "y"]%string) sq_pool).2 = Ok 2) as H2
        by by vm_compute.
      rewrite Hi in H2. cbn in H2. congruence. }
    split; [exact Hi|]. intros e. destruct (Hv e) as (v & Hd & Hit).
    replace 1%Qc with v; [done|]. eapply (denotes_fun pd_den (p_nodes q) e 2); [exact Hd|].
    assert (q = (xa_integrate pd_alg (fun p => p) simp1 sat_any pd_resolver full dom69 7 (Some ["x"; "y"]%string) sq_pool).1) as -> by by rewrite Hi.
    eapply dn_leaf; [vm_compute; reflexivity|]. exact (pd_leaf _ _).
Qed.

(** ** Where the property fails *)

(** Integrating over an empty list of variables does not leave the diagram as it is: the
    list is taken for "all variables of the domain". *)
Theorem C69_empty_means_all_refuted : let e := Env (fun _ => true) (fun _ => Q2Qc (1 # 4)) in
  pd_reachable sq_pool /\ p_ordering sq_pool = false /\
  denotes pd_den (p_nodes sq_pool) e 7 (Q2Qc (1 # 2)) /\
  exists q, xa_integrate pd_alg (fun p => p) simp1 sat_any pd_resolver full dom69 7 (Some []) sq_pool = (q, Ok 2) /\
    denotes pd_den (p_nodes q) e 2 1%Qc.
Proof.
  intros e. split; [exact sq_reachable|]. split; [done|]. split.
  - do 4 (eapply dn_false; [vm_compute; reflexivity|vm_compute; reflexivity|]).
    eapply dn_leaf; [vm_compute; reflexivity|]. unfold pd_den. apply (f_equal Some). apply Qc_is_canon. reflexivity.
  - eexists. split; [vm_compute; reflexivity|]. eapply dn_leaf; [reflexivity|]. exact (pd_leaf _ _).
Qed.
Print Assumptions C69_empty_means_all_refuted.

(** With a pool that was given an ordering, products of diagrams raise. *)
Theorem C69_with_ordering_refuted : let p := new_pool pd_alg true in
  let t := ETimes (ECond (LeN (RealC 0) RX)) (ECond (LeN RX RY)) in
  pd_reachable p /\ Forall condition (conditions t) /\ (pd_build t p).2 = Err AttributeError.
Proof.
  cbv zeta. split; [exists []; constructor|]. split; [|by vm_compute].
  apply Forall_forall. intros f Hf. cbn in Hf. rewrite !elem_of_cons, elem_of_nil in Hf. right.
  destruct Hf as [->|[->|[]]]; eexists _, _; (split; [constructor|]); split; first [apply le_sym|do 2 constructor].
Qed.
Print Assumptions C69_with_ordering_refuted.

(** On a hyperplane a condition can count as its negation: x <= 0 at x = 0. *)
Theorem C69_on_hyperplane_refuted : let e := Env (fun _ => true) (fun _ => 0%Qc) in
  let t := ECond (LeN RX (RealC 0)) in
  value e t = 1%Qc /\ exists q r, pd_build t pd_new = (q, Ok r) /\ denotes pd_den (p_nodes q) e r 0%Qc.
Proof.
  cbv zeta. split; [by vm_compute|]. eexists _, _. split; [vm_compute; reflexivity|].
  eapply dn_false; [reflexivity|vm_compute; reflexivity|]. eapply dn_leaf; [reflexivity|]. exact (pd_leaf _ _).
Qed.
Print Assumptions C69_on_hyperplane_refuted.

(** Other cases of the hypotheses *)
Example C69_unknown_case : "z"%string ∈ ["x"; "z"]%string /\ dget (d_types dom69) "z" = None.
Proof. split; [right; left|done]. Qed.
Example C69_to_float_case : (forall x v, (if bool_decide (x = poly_const 1) then Ok 1%Qc else Err ValueError) = Ok v -> forall e, pd_den x e = Some v) /\
  (xa_to_float (fun x => if bool_decide (x = poly_const 1) then Ok 1%Qc else Err ValueError) 2 sq_pool).2 = Ok 1%Qc /\
  (xa_to_float (fun x => if bool_decide (x = poly_const 1) then Ok 1%Qc else Err ValueError) 7 sq_pool).2 = Err AssertionError.
Proof.
  split; [|split; by vm_compute]. intros x v Hx e. case_bool_decide; [|done]. injection Hx as <-. subst x. apply pd_leaf.
Qed.
