(** Lemmas for C48-C51: the integral is unique, additive and monotone in the
    interval. *)

From Verif Require Import Base Dict Smt Math_Model Math_Spec Poly_Proofs Integral_Spec.

Lemma pol_upoly cs x : pol cs x = upoly cs x.
Proof. induction cs as [|c cs IH]; [done|]. cbn. by rewrite IH. Qed.

(** ** Polynomials that vanish on an interval *)

Lemma qc_mid (a b : Qc) : (a < b)%Qc -> exists m, (a < m)%Qc /\ (m < b)%Qc.
Proof. intros H. exists ((a + b) / qz 2)%Qc. change (qz 2) with (Q2Qc (2 # 1)). unfold Qcdiv.
  assert (/ Q2Qc (2 # 1) = Q2Qc (1 # 2))%Qc as -> by by apply Qc_is_canon. split; qclra. Qed.

Lemma pol_vanish n : forall cs a b, length cs <= n -> (a < b)%Qc ->
  (forall t, (a < t)%Qc -> (t < b)%Qc -> pol cs t = 0%Qc) -> Forall (fun c => c = 0%Qc) cs.
Proof.
  induction n as [|n IH]; intros cs a b Hn Hab Hz; [destruct cs; [constructor|cbn in Hn; lia]|].
  destruct (qc_mid a b Hab) as (r & Har & Hrb).
  apply (uquot_zero r); [rewrite <- pol_upoly; by apply Hz|].
  apply (IH _ r b); [rewrite uquot_length; lia|done|].
  intros t Hrt Htb. assert (a < t)%Qc as Hat by qclra.
  pose proof (uquot_spec r cs t) as Hq. rewrite <- (pol_upoly cs t), <- (pol_upoly cs r), <- (pol_upoly (uquot r cs) t), (Hz t), (Hz r) in Hq by done.
  assert ((t - r) * pol (uquot r cs) t = 0)%Qc as H0 by (rewrite <- Hq; ring).
  apply Qcmult_integral in H0 as [H0|H0]; [|done]. exfalso. qclra.
Qed.

Lemma pol_zero cs x : Forall (fun c => c = 0%Qc) cs -> pol cs x = 0%Qc.
Proof. induction 1 as [|c cs -> H IH]; [done|]. cbn. rewrite IH. ring. Qed.
Lemma divided_zero cs n : Forall (fun c => c = 0%Qc) cs -> Forall (fun c => c = 0%Qc) (divided n cs).
Proof. intros H. revert n. induction H as [|c cs -> H IH]; intros n; constructor; [|apply IH]. unfold Qcdiv. ring. Qed.
Lemma primitive_zero cs x : Forall (fun c => c = 0%Qc) cs -> pol (primitive cs) x = 0%Qc.
Proof. intros H. apply pol_zero. constructor; [done|]. by apply divided_zero. Qed.

(** ** Differences *)
Fixpoint padd (cs ds : list Qc) : list Qc :=
  match cs, ds with
  | [], _ => ds
  | _, [] => cs
  | c :: cs, d :: ds => (c + d)%Qc :: padd cs ds
  end.
Lemma pol_padd cs : forall ds x, pol (padd cs ds) x = (pol cs x + pol ds x)%Qc.
Proof. induction cs as [|c cs IH]; intros [|d ds] x; cbn [padd pol]; try ring. rewrite IH. ring. Qed.
Lemma divided_padd cs : forall ds n x, pol (divided n (padd cs ds)) x = (pol (divided n cs) x + pol (divided n ds) x)%Qc.
Proof.
  induction cs as [|c cs IH]; intros [|d ds] n x; cbn [padd divided pol]; try ring. rewrite IH. unfold Qcdiv. ring.
Qed.
Definition popp (cs : list Qc) : list Qc := map Qcopp cs.
Lemma pol_popp cs x : pol (popp cs) x = (- pol cs x)%Qc.
Proof. induction cs as [|c cs IH]; cbn [popp map pol]; [ring|]. fold (popp cs). rewrite IH. ring. Qed.
Lemma divided_popp cs : forall n x, pol (divided n (popp cs)) x = (- pol (divided n cs) x)%Qc.
Proof. induction cs as [|c cs IH]; intros n x; cbn [popp map divided pol]; [ring|]. fold (popp cs). rewrite IH. unfold Qcdiv. ring. Qed.

Lemma pol_unique cs ds a b : (a < b)%Qc -> (forall t, (a < t)%Qc -> (t < b)%Qc -> pol cs t = pol ds t) ->
  forall x, pol cs x = pol ds x /\ pol (primitive cs) x = pol (primitive ds) x.
Proof.
  intros Hab Heq x. assert (Forall (fun c => c = 0%Qc) (padd cs (popp ds))) as Hz.
  { apply (pol_vanish (length (padd cs (popp ds))) _ a b); [done|done|]. intros t H1 H2.
    rewrite pol_padd, pol_popp, Heq by done. ring. }
  split.
  - pose proof (pol_zero _ x Hz) as H0. rewrite pol_padd, pol_popp in H0. qclra.
  - pose proof (pol_zero _ x (divided_zero _ 1 Hz)) as H0. rewrite divided_padd, divided_popp in H0.
    unfold primitive. cbn [pol]. assert (pol (divided 1 cs) x = pol (divided 1 ds) x) as -> by qclra. done.
Qed.

(** ** The integral *)

Lemma integral_le F a b v : integral F a b v -> (a <= b)%Qc.
Proof. induction 1; [done|]. qclra. Qed.

Lemma integral_mono (F G : Qc -> Qc -> Prop) a b v : integral F a b v ->
  (forall t y, (a < t)%Qc -> (t < b)%Qc -> F t y -> G t y) -> integral G a b v.
Proof.
  induction 1 as [a b cs Hab Hp|a c b v w H1 IH1 H2 IH2]; intros HG.
  - constructor; [done|]. intros t Ha Hb. by apply HG, Hp.
  - apply integral_le in H1, H2. apply (in_join _ _ c).
    + apply IH1. intros t y Ha Hc. apply HG; qclra.
    + apply IH2. intros t y Hc Hb. apply HG; qclra.
Qed.

Lemma integral_empty F a : integral F a a 0%Qc.
Proof.
  replace 0%Qc with (pol (primitive []) a - pol (primitive []) a)%Qc at 1 by (cbn; ring).
  constructor; [qclra|]. intros t H1 H2. exfalso. qclra.
Qed.

Lemma integral_zero F a b v : integral F a b v -> (forall t y, (a < t)%Qc -> (t < b)%Qc -> F t y -> y = 0%Qc) -> v = 0%Qc.
Proof.
  induction 1 as [a b cs Hab Hp|a c b v w H1 IH1 H2 IH2]; intros Hz.
  - destruct (Qcle_lt_or_eq _ _ Hab) as [Hlt| ->]; [|ring].
    assert (Forall (fun c => c = 0%Qc) cs) as H0.
    { apply (pol_vanish (length cs) cs a b); [done|done|]. intros t Ha Hb. apply (Hz t); [done|done|]. by apply Hp. }
    rewrite !primitive_zero by done. ring.
  - apply integral_le in H1, H2. rewrite IH1, IH2; [ring| |]; intros t y Ha Hb; apply Hz; qclra.
Qed.

Lemma integral_of_zero (F : Qc -> Qc -> Prop) a b : (a <= b)%Qc -> (forall t, (a < t)%Qc -> (t < b)%Qc -> F t 0%Qc) -> integral F a b 0%Qc.
Proof.
  intros Hab Hz. replace 0%Qc with (pol (primitive []) b - pol (primitive []) a)%Qc by (cbn; ring).
  constructor; [done|]. intros t Ha Hb. by apply Hz.
Qed.

Lemma integral_cut F a b v : integral F a b v -> forall c, (a <= c)%Qc -> (c <= b)%Qc ->
  exists v1 v2, integral F a c v1 /\ integral F c b v2 /\ v = (v1 + v2)%Qc.
Proof.
  induction 1 as [a b cs Hab Hp|a m b v w H1 IH1 H2 IH2]; intros c Hac Hcb.
  - eexists _, _. split; [apply (in_piece _ a c cs); [done|]|split; [apply (in_piece _ c b cs); [done|]|ring]].
    + intros t Ha Hc. apply Hp; [done|qclra].
    + intros t Hc Hb. apply Hp; [qclra|done].
  - pose proof (integral_le _ _ _ _ H1) as Ham. pose proof (integral_le _ _ _ _ H2) as Hmb.
    destruct (Qclt_le_dec c m) as [Hcm|Hmc].
    + destruct (IH1 c) as (v1 & v2 & I1 & I2 & ->); [done|qclra|]. exists v1, (v2 + w)%Qc.
      split; [done|]. split; [by eapply in_join|ring].
    + destruct (IH2 c) as (v1 & v2 & I1 & I2 & ->); [done|done|]. exists (v + v1)%Qc, v2.
      split; [by eapply in_join|]. split; [done|ring].
Qed.

Definition functional (F : Qc -> Qc -> Prop) : Prop := forall t x y, F t x -> F t y -> x = y.

Lemma integral_unique F a b v w : functional F -> integral F a b v -> integral F a b w -> v = w.
Proof.
  intros HF Hv. revert w. induction Hv as [a b cs Hab Hp|a c b v1 v2 H1 IH1 H2 IH2]; intros w Hw.
  - revert Hp Hab. induction Hw as [a b ds Hab Hq|a c b w1 w2 H1 IH1 H2 IH2]; intros Hp _.
    + destruct (Qcle_lt_or_eq _ _ Hab) as [Hlt| ->]; [|ring].
      assert (forall t, (a < t)%Qc -> (t < b)%Qc -> pol cs t = pol ds t) as Heq.
      { intros t Ha Hb. apply (HF t); [by apply Hp|by apply Hq]. }
      destruct (pol_unique cs ds a b Hlt Heq a) as [_ ->]. by destruct (pol_unique cs ds a b Hlt Heq b) as [_ ->].
    + apply integral_le in H1, H2. rewrite <- IH1, <- IH2; try done; [ring| |]; intros t Ha Hb; apply Hp; qclra.
  - destruct (integral_cut _ _ _ _ Hw c) as (w1 & w2 & W1 & W2 & ->); [by eapply integral_le|by eapply integral_le|].
    by rewrite (IH1 w1 W1), (IH2 w2 W2).
Qed.

(** Parts where the function is zero do not count. *)
Lemma integral_shrink F a b v c d : integral F a b v -> (a <= c)%Qc -> (c <= d)%Qc -> (d <= b)%Qc ->
  (forall t y, (t < c)%Qc -> F t y -> y = 0%Qc) \/ a = c -> (forall t y, (d < t)%Qc -> F t y -> y = 0%Qc) \/ b = d ->
  integral F c d v.
Proof.
  intros Hi Hac Hcd Hdb Hlo Hhi.
  destruct (integral_cut _ _ _ _ Hi c) as (v1 & v2 & I1 & I2 & ->); [done|qclra|].
  destruct (integral_cut _ _ _ _ I2 d) as (v3 & v4 & I3 & I4 & ->); [done|done|].
  assert (v1 = 0%Qc) as ->.
  { destruct Hlo as [Hz| ->]; [|apply (integral_zero F c c); [done|]; intros t y Ha Hb; exfalso; qclra].
    apply (integral_zero F a c); [done|]. intros t y _. apply Hz. }
  assert (v4 = 0%Qc) as ->.
  { destruct Hhi as [Hz| ->]; [|apply (integral_zero F d d); [done|]; intros t y Ha Hb; exfalso; qclra].
    apply (integral_zero F d b); [done|]. intros t y Hd _. by apply Hz. }
  replace (0 + (v3 + 0))%Qc with v3 by ring. done.
Qed.
