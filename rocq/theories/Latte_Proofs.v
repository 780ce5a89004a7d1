(** Proofs for C55. *)

From Verif Require Import Base Dict Smt Math_Model Math_Spec Poly_Proofs Linear_Proofs Arith_Proofs Latte_Model Latte_Spec.

Lemma limit_small v : (Zpos (Qden (this v)) <= 10 ^ 6)%Z -> limit_denominator v = v.
Proof.
  intros H. unfold limit_denominator, max_den. change (10 ^ 6)%Z with 1000000%Z in H.
  by rewrite (proj2 (Z.leb_le _ _) H).
Qed.

(** A sum over the variables of the coefficients equals the value of the terms. *)
Definition lin_sum (e : env) (vars : list string) (g : string -> Qc) : Qc :=
  qsum (map (fun v => (g v * er e v)%Qc) vars).

Lemma lin_sum_ext e vars g h : (forall v, v ∈ vars -> g v = h v) -> lin_sum e vars g = lin_sum e vars h.
Proof.
  intros H. unfold lin_sum. f_equal. apply map_ext_in. intros v Hv. rewrite H; [done|]. by apply elem_of_list_In.
Qed.

Lemma lin_sum_upd e vars g x c : NoDup vars -> x ∈ vars ->
  lin_sum e vars (fun v => if decide (v = x) then (c + g v)%Qc else g v) = (c * er e x + lin_sum e vars g)%Qc.
Proof.
  induction vars as [|y vars IH]; intros Hn Hx; [by apply elem_of_nil in Hx|].
  apply NoDup_cons in Hn as [Hy Hn]. unfold lin_sum in *. cbn [map qsum fold_right].
  apply elem_of_cons in Hx as [<-|Hx].
  - rewrite decide_True by done.
    rewrite (map_ext_in (fun v => ((if decide (v = x) then c + g v else g v) * er e v)%Qc) (fun v => (g v * er e v)%Qc)).
    + unfold qsum. ring.
    + intros v Hv. rewrite decide_False; [done|]. intros ->. apply Hy. by apply elem_of_list_In.
  - rewrite decide_False by (intros ->; done). specialize (IH Hn Hx). unfold qsum in *. rewrite IH. ring.
Qed.

Lemma lin_sum_zero e vars : lin_sum e vars (fun _ => 0%Qc) = 0%Qc.
Proof. unfold lin_sum, qsum. induction vars as [|v vars IH]; [done|]. cbn [map fold_right]. rewrite IH. ring. Qed.

Lemma terms_value e vars d : NoDup vars -> dwf d ->
  (forall k v, (k, v) ∈ d -> k = [] \/ exists x, k = [x] /\ x ∈ vars) ->
  poly_val e d = (li_coefficient d [] + lin_sum e vars (fun v => li_coefficient d [v]))%Qc.
Proof.
  intros Hn. induction d as [|[k c] d IH]; intros Hwf Hk.
  { rewrite pv_nil. unfold li_coefficient. cbn [dget default]. rewrite lin_sum_zero. ring. }
  unfold dwf in Hwf. cbn in Hwf. apply NoDup_cons in Hwf as [Hk0 Hwf].
  rewrite pv_cons, IH; [|done|by intros k' v' Hin; apply (Hk k' v'); right].
  assert (dget d k = None) as Hg by (by apply dget_None).
  destruct (Hk k c) as [->|(x & -> & Hx)]; [by left| |].
  - rewrite (lin_sum_ext e vars (fun v => li_coefficient (([], c) :: d) [v]) (fun v => li_coefficient d [v])) by done.
    assert (li_coefficient d [] = 0%Qc) as -> by (unfold li_coefficient; by rewrite Hg).
    change (li_coefficient (([], c) :: d) []) with c. change (mono_val e []) with 1%Qc. ring.
  - rewrite (lin_sum_ext e vars (fun v => li_coefficient (([x], c) :: d) [v])
      (fun v => if decide (v = x) then (c + li_coefficient d [v])%Qc else li_coefficient d [v])).
    + rewrite lin_sum_upd by done. change (li_coefficient (([x], c) :: d) []) with (li_coefficient d []).
      change (mono_val e [x]) with (er e x * 1)%Qc. ring.
    + intros v _. unfold li_coefficient. cbn [dget]. destruct (decide (v = x)) as [->|Hne].
      * rewrite decide_True by done. rewrite Hg. cbn. ring.
      * rewrite decide_False; [done|]. congruence.
Qed.

Lemma trunc_int q : (exists z, q = qz z) -> qz (trunc q) = q.
Proof. intros [z ->]. by rewrite trunc_qz. Qed.

Lemma scaled_coefficient c d k : li_coefficient (scaled c d) k = (c * li_coefficient d k)%Qc.
Proof.
  unfold li_coefficient, scaled. induction d as [|[k' v] d IH]; cbn; [ring|].
  destruct (decide (k' = k)); [done|]. exact IH.
Qed.

Lemma coefficient_int c d k : (forall k v, (k, v) ∈ scaled c d -> exists z, v = qz z) ->
  exists z, li_coefficient (scaled c d) k = qz z.
Proof.
  intros H. unfold li_coefficient. destruct (dget (scaled c d) k) as [v|] eqn:E; [|by exists 0%Z].
  apply dget_In in E. by destruct (H _ _ E) as [z ->]; exists z.
Qed.

Lemma opp_int q : (exists z, q = qz z) -> exists z, (- q)%Qc = qz z.
Proof.
  intros [z ->]. exists (- z)%Z. replace (- z)%Z with (-1 * z)%Z by lia. rewrite qz_mul.
  change (qz (-1)) with (- (1))%Qc. ring.
Qed.

Lemma row_value_rows e vars b (g : string -> Qc) : (exists z, b = qz z) -> (forall v, exists z, g v = qz z) ->
  row_value e vars (map trunc (b :: map g vars)) = (b + lin_sum e vars g)%Qc.
Proof.
  intros Hb Hg. unfold row_value. cbn [map zip_with qsum fold_right]. rewrite trunc_int by done.
  assert (forall l, qsum (zip_with (fun c x => (qz c * x)%Qc) (map trunc (map g l)) (map (er e) l)) = lin_sum e l g) as H.
  { induction l as [|v l IH]; [done|]. cbn [map zip_with qsum fold_right]. unfold qsum in IH. rewrite IH.
    rewrite trunc_int by done. done. }
  unfold qsum in H. rewrite H. ring.
Qed.

Lemma lin_sum_scale e vars c g : lin_sum e vars (fun v => (- (c * g v))%Qc) = (- (c * lin_sum e vars g))%Qc.
Proof. unfold lin_sum, qsum. induction vars as [|v vars IH]; cbn [map fold_right]; [ring|]. rewrite IH. ring. Qed.

Lemma row_correct vars M d : NoDup vars -> (0 < M <= 2 ^ 53)%Z -> usable_bound vars M d ->
  exists row c, (0 < c)%Qc /\ latte_row vars d = Ok row /\ length row = S (length vars) /\
    forall e, row_value e vars row = (- (c * poly_val e d))%Qc.
Proof.
  intros Hn HM (Hne & Hwf & Hd).
  destruct (li_scale_scaled limit_denominator M d) as (c & Hc & E & Hz); try done.
  { intros k v Hin. by apply (Hd k v). }
  { intros k v Hin. apply limit_small. by apply (Hd k v). }
  { intros k v Hin. by apply (Hd k v). }
  eexists _, c. split; [done|]. split; [unfold latte_row; rewrite E; cbn [rbind]; done|].
  split; [by rewrite map_length; cbn; rewrite map_length|].
  intros e. rewrite row_value_rows.
  - unfold li_b. change CONST_KEY with (@nil string). rewrite scaled_coefficient.
    rewrite (lin_sum_ext e vars _ (fun v => (- (c * li_coefficient d [v]))%Qc)).
    + rewrite lin_sum_scale. rewrite (terms_value e vars d Hn Hwf); [ring|]. intros k v Hin. by apply (Hd k v).
    + intros v _. by rewrite scaled_coefficient.
  - unfold li_b. apply opp_int. by apply coefficient_int.
  - intros v. apply opp_int. by apply coefficient_int.
Qed.

Lemma neg_scale_sign (c x : Qc) : (0 < c)%Qc -> ((0 <= - (c * x))%Qc <-> (x <= 0)%Qc) /\ ((0 < - (c * x))%Qc <-> (x < 0)%Qc).
Proof. intros Hc. split; split; intros H; qcnra. Qed.

Lemma rows_correct vars M bounds : NoDup vars -> (0 < M <= 2 ^ 53)%Z -> Forall (usable_bound vars M) bounds ->
  exists rows, latte_rows vars bounds = Ok rows /\ length rows = length bounds /\
    Forall (fun row => length row = S (length vars)) rows /\
    forall e, (in_polytope e vars rows <-> Forall (bound_holds e) bounds) /\
      (Forall (fun row => (0 < row_value e vars row)%Qc) rows <-> Forall (fun d => (poly_val e d < 0)%Qc) bounds).
Proof.
  intros Hn HM Hb. unfold latte_rows. induction Hb as [|d bounds Hd Hb IH].
  - exists []. split; [done|]. split; [done|]. split; [constructor|]. intros e. split; (split; intros _; constructor).
  - destruct IH as (rows & E & HL & Hl & HI). destruct (row_correct vars M d Hn HM Hd) as (row & c & Hc & Er & Hr & Hv).
    exists (row :: rows). rewrite rmapM_cons, Er. cbn [rbind]. rewrite E. split; [done|].
    split; [cbn; by rewrite HL|]. split; [by constructor|]. intros e. destruct (HI e) as [H1 H2].
    unfold in_polytope in *. rewrite !Forall_cons, H1, H2, Hv. unfold bound_holds.
    destruct (neg_scale_sign c (poly_val e d) Hc) as [N1 N2]. by rewrite N1, N2.
Qed.

(** * The polynomial *)

Lemma count_cons (v u : string) (key : list string) : length (List.filter (fun w => bool_decide (w = v)) (u :: key)) =
  (if decide (u = v) then 1 else 0) + length (List.filter (fun w => bool_decide (w = v)) key).
Proof. cbn. destruct (decide (u = v)) as [->|H]; [rewrite bool_decide_true|rewrite bool_decide_false]; done. Qed.

Lemma exponents_value e vars key : NoDup vars -> (forall x, x ∈ key -> x ∈ vars) ->
  qprod (zip_with (fun x n => qpow x n) (map (er e) vars) (key_to_exponents vars key)) = mono_val e key.
Proof.
  intros Hn. unfold key_to_exponents, mono_val.
  assert (forall vs, zip_with (fun x n => qpow x n) (map (er e) vs)
    (map (fun v => length (List.filter (fun u => bool_decide (u = v)) key)) vs) =
    map (fun v => qpow (er e v) (length (List.filter (fun u => bool_decide (u = v)) key))) vs) as Hz.
  { induction vs as [|v vs IH]; [done|]. cbn. by rewrite IH. }
  rewrite Hz. clear Hz. induction key as [|u key IH]; intros Hk.
  - unfold qprod. clear. induction vars as [|v vars IH]; [done|]. cbn [map fold_right List.filter length qpow] in *.
    rewrite IH. ring.
  - cbn [map qprod fold_right]. change (fold_right Qcmult 1%Qc (map (er e) key)) with (qprod (map (er e) key)).
    rewrite <- IH by (intros x Hx; apply Hk; by right).
    assert (u ∈ vars) as Hu by (apply Hk; by left). clear IH Hk.
    induction vars as [|v vars IH]; [by apply elem_of_nil in Hu|].
    apply NoDup_cons in Hn as [Hv Hn]. cbn [map qprod fold_right]. rewrite count_cons.
    apply elem_of_cons in Hu as [<-|Hu].
    + rewrite decide_True by done. cbn [Nat.add qpow].
      rewrite (map_ext_in _ (fun v => qpow (er e v) (length (List.filter (fun u => bool_decide (u = v)) key)))).
      * unfold qprod. ring.
      * intros w Hw. rewrite count_cons, decide_False; [done|]. intros ->. apply Hv. by apply elem_of_list_In.
    + rewrite decide_False by (intros ->; done). cbn [Nat.add]. specialize (IH Hn Hu). unfold qprod in *.
      rewrite IH. ring.
Qed.

Lemma monomials_correct e vars p : NoDup vars ->
  (forall k v, (k, v) ∈ p -> (forall x, x ∈ k -> x ∈ vars) /\ (Zpos (Qden (this v)) <= 10 ^ 6)%Z) ->
  monomials_value e vars (latte_monomials vars p) = poly_val e p.
Proof.
  intros Hn Hp. unfold monomials_value, latte_monomials, poly_val. rewrite map_map. f_equal.
  apply map_ext_in. intros [k v] Hin. apply elem_of_list_In in Hin. destruct (Hp k v Hin) as [Hk Hd]. cbn [fst snd].
  by rewrite limit_small, exponents_value.
Qed.
