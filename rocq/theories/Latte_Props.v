(** C55: what is handed to LattE describes the given polytope and polynomial. *)

From Verif Require Import Base Dict Smt Math_Model Math_Spec Latte_Model Latte_Spec Latte_Proofs.

(** The rows written for inequalities over the domain's variables, whose
    coefficients have denominators up to a million with a common multiple up to
    2^53, describe exactly the points where every inequality holds, and their
    interior exactly the points where every inequality holds strictly. *)
Theorem latte_rows_polytope_partial vars M bounds :
  NoDup vars -> (0 < M <= 2 ^ 53)%Z -> Forall (usable_bound vars M) bounds ->
  exists rows, latte_rows vars bounds = Ok rows /\ length rows = length bounds /\
    Forall (fun row => length row = S (length vars)) rows /\
    forall e, (in_polytope e vars rows <-> Forall (bound_holds e) bounds) /\
      (Forall (fun row => (0 < row_value e vars row)%Qc) rows <-> Forall (fun d => (poly_val e d < 0)%Qc) bounds).
Proof. exact (rows_correct vars M bounds). Qed.
Print Assumptions latte_rows_polytope_partial.

(** The monomials written for a polynomial over the domain's variables, with
    coefficients of denominators up to a million, have its value at every point. *)
Theorem latte_monomials_polynomial_partial e vars p :
  NoDup vars ->
  (forall k v, (k, v) ∈ p -> (forall x, x ∈ k -> x ∈ vars) /\ (Zpos (Qden (this v)) <= 10 ^ 6)%Z) ->
  monomials_value e vars (latte_monomials vars p) = poly_val e p.
Proof. exact (monomials_correct e vars p). Qed.
Print Assumptions latte_monomials_polynomial_partial.

(** Together: if the program answers with a fraction that is the integral of the
    polynomial it was given over the polytope it was given, the code returns the
    integral of the given polynomial over the region of the given inequalities, for
    any notion of integral that depends only on the region and the function. *)
Theorem latte_integral_partial (integral : (env -> Prop) -> (env -> Qc) -> Qc) run unsat vars M bounds p n d :
  (forall A B f g, (forall e, A e <-> B e) -> (forall e, f e = g e) -> integral A f = integral B g) ->
  (forall rows ms n d, run rows ms = Some (Some (n, d)) ->
     d <> 0%Z /\ (qz n / qz d)%Qc = integral (fun e => in_polytope e vars rows) (fun e => monomials_value e vars ms)) ->
  NoDup vars -> (0 < M <= 2 ^ 53)%Z -> Forall (usable_bound vars M) bounds ->
  (forall k v, (k, v) ∈ p -> (forall x, x ∈ k -> x ∈ vars) /\ (Zpos (Qden (this v)) <= 10 ^ 6)%Z) ->
  (forall rows, latte_rows vars bounds = Ok rows -> run rows (latte_monomials vars p) = Some (Some (n, d))) ->
  latte_integrate run unsat vars bounds p =
    Ok (integral (fun e => Forall (bound_holds e) bounds) (fun e => poly_val e p)).
Proof.
  intros Hext Hrun Hn HM Hb Hp Hans.
  destruct (rows_correct vars M bounds Hn HM Hb) as (rows & E & _ & _ & HI).
  unfold latte_integrate. rewrite E. cbn [rbind]. rewrite (Hans rows E).
  destruct (Hrun _ _ _ _ (Hans rows E)) as [Hd Hv]. rewrite (proj2 (Z.eqb_neq d 0) Hd). f_equal. rewrite Hv.
  apply Hext; [intros e; apply HI|]. intros e. by apply monomials_correct.
Qed.
Print Assumptions latte_integral_partial.

(** When the program fails, a number is returned only if the solver finds the
    inequalities unsatisfiable, and then it is the integral over that empty region;
    otherwise an exception is raised. *)
Theorem latte_failure_partial (integral : (env -> Prop) -> (env -> Qc) -> Qc) run unsat vars M bounds p :
  (forall A f, (forall e, ~ A e) -> integral A f = 0%Qc) ->
  (unsat = true <-> forall e, ~ Forall (bound_holds e) bounds) ->
  NoDup vars -> (0 < M <= 2 ^ 53)%Z -> Forall (usable_bound vars M) bounds ->
  (forall rows ms, run rows ms = None) ->
  (forall q, latte_integrate run unsat vars bounds p = Ok q ->
     q = integral (fun e => Forall (bound_holds e) bounds) (fun e => poly_val e p)) /\
  ((exists e, Forall (bound_holds e) bounds) -> latte_integrate run unsat vars bounds p = Err RuntimeErr).
Proof.
  intros Hemp Hun Hn HM Hb Hfail.
  destruct (rows_correct vars M bounds Hn HM Hb) as (rows & E & _).
  unfold latte_integrate. rewrite E. cbn [rbind]. rewrite Hfail. destruct unsat.
  - assert (He := proj1 Hun eq_refl). split; [intros q [= <-]; by rewrite Hemp|].
    intros [e Hx]. by destruct (He e).
  - split; [done|]. done.
Qed.
Print Assumptions latte_failure_partial.

(** x/2 + 2y/3 - 1 <= 0 and -y <= 0, over x and y; and the polynomial 3/4 x^2 y + 2. *)
Definition b1 : list (list string * Qc) := [(["x"], Q2Qc (1 # 2)); (["y"], Q2Qc (2 # 3)); ([], qz (-1))].
Definition b2 : list (list string * Qc) := [(["y"], qz (-1))].
Definition p1 : list (list string * Qc) := [(["x"; "x"; "y"], Q2Qc (3 # 4)); ([], qz 2)].

Example latte_example : NoDup ["x"; "y"] /\ Forall (usable_bound ["x"; "y"] 6) [b1; b2] /\
  latte_rows ["x"; "y"] [b1; b2] = Ok [[6; -3; -4]; [0; 0; 1]]%Z.
Proof.
  split; [dec|]. split; [|vm_compute; reflexivity].
  constructor; [|constructor; [|constructor]].
  - split; [done|]. split; [dec|]. intros k v Hin. unfold b1 in Hin.
    repeat (apply elem_of_cons in Hin as [[= -> ->]|Hin]).
    + split; [dec|]. split; [right; eexists; split; [done|dec]|]. split; [by vm_compute|by exists 3%Z].
    + split; [dec|]. split; [right; eexists; split; [done|dec]|]. split; [by vm_compute|by exists 2%Z].
    + split; [dec|]. split; [by left|]. split; [by vm_compute|by exists 6%Z].
    + by apply elem_of_nil in Hin.
  - split; [done|]. split; [dec|]. intros k v Hin. unfold b2 in Hin.
    repeat (apply elem_of_cons in Hin as [[= -> ->]|Hin]); [|by apply elem_of_nil in Hin].
    split; [dec|]. split; [right; eexists; split; [done|dec]|]. split; [by vm_compute|by exists 6%Z].
Qed.
Example latte_example_monomials :
  map snd (latte_monomials ["x"; "y"] p1) = [[2; 1]; [0; 0]] /\
  forall k v, (k, v) ∈ p1 -> (forall x, x ∈ k -> x ∈ ["x"; "y"]) /\ (Zpos (Qden (this v)) <= 10 ^ 6)%Z.
Proof.
  split; [by vm_compute|]. intros k v Hin. unfold p1 in Hin.
  repeat (apply elem_of_cons in Hin as [[= -> ->]|Hin]); [| |by apply elem_of_nil in Hin].
  - split; [|by vm_compute]. intros x Hx. repeat (apply elem_of_cons in Hx as [->|Hx]; [dec|]). by apply elem_of_nil in Hx.
  - split; [|by vm_compute]. intros x Hx. by apply elem_of_nil in Hx.
Qed.

(** Small coefficients are lost.  x/3000000 - 1 <= 0 is written as the row [1, 0],
    which every point satisfies. *)
Theorem latte_small_coefficient_refuted : exists d rows e,
  d = [(["x"], Q2Qc (1 # 3000000)); ([], qz (-1))] /\ latte_rows ["x"] [d] = Ok rows /\
  in_polytope e ["x"] rows /\ ~ bound_holds e d.
Proof.
  eexists _, [[1; 0]]%Z, (Env (fun _ => true) (fun _ => qz 3000001)). split; [done|].
  split; [vm_compute; reflexivity|]. split.
  - constructor; [|constructor]. by vm_compute.
  - unfold bound_holds. vm_compute. intros H. by apply H.
Qed.
Print Assumptions latte_small_coefficient_refuted.

(** The same happens to the coefficients of the polynomial. *)
Theorem latte_small_weight_refuted : exists p e,
  p = [([], Q2Qc (1 # 3000000))] /\ monomials_value e ["x"] (latte_monomials ["x"] p) = 0%Qc /\ poly_val e p <> 0%Qc.
Proof.
  eexists _, (Env (fun _ => true) (fun _ => 0%Qc)). split; [done|]. split; [|dec].
  apply Qc_is_canon. by vm_compute.
Qed.
Print Assumptions latte_small_weight_refuted.

(** An inequality all of whose coefficients are that small makes the code divide by
    zero; the trivial inequality raises as well. *)
Theorem latte_raises_refuted :
  latte_rows ["x"] [[(["x"], Q2Qc (1 # 3000000)); ([], Q2Qc (-1 # 3000000))]] = Err ZeroDivisionError /\
  latte_rows ["x"] [[]] = Err TypeError.
Proof. split; by vm_compute. Qed.
Print Assumptions latte_raises_refuted.

(** A variable that is not a real variable of the domain is dropped: x - z <= 0 is
    written, over x alone, as -x >= 0, and the monomial z as the constant 1. *)
Theorem latte_foreign_variable_refuted : exists d rows e,
  d = [(["x"], 1%Qc); (["z"], (- (1))%Qc)] /\ latte_rows ["x"] [d] = Ok rows /\
  bound_holds e d /\ ~ in_polytope e ["x"] rows /\
  monomials_value e ["x"] (latte_monomials ["x"] [(["z"], 1%Qc)]) <> poly_val e [(["z"], 1%Qc)].
Proof.
  eexists _, [[0; -1]]%Z, (Env (fun _ => true) (fun x => if bool_decide (x = "z"%string) then qz 2 else qz 1)).
  split; [done|]. split; [vm_compute; reflexivity|]. split; [by vm_compute|]. split.
  - intros H. inversion H as [|? ? H1 _]; subst. by vm_compute in H1.
  - by vm_compute.
Qed.
Print Assumptions latte_foreign_variable_refuted.
