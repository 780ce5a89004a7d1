(** The pieces of a weight are monomials, so that no two of them share a term. *)

From Verif Require Import Base Dict Smt Smt_Facts Walk_Model Math_Model Math_Spec Poly_Proofs Arith_Proofs.
From Verif Require Import Piecewise_Model Piecewise_Spec Piecewise_Proofs Factor_Model Factor_Spec.

Definition mono_key (k : pkey) : Prop := match k with KNum _ => True | KPoly p => length p <= 1 end.
Definition mono_wf (k : pkey) : Prop := key_wf k /\ mono_key k.

Lemma mul_mono p q : length p <= 1 -> length q <= 1 -> length (a_mul poly_alg p q) <= 1.
Proof.
  intros Hp Hq. cbn. destruct p as [|[k a] [|]]; [cbn; lia| |cbn in Hp; lia]. destruct q as [|[k' b] [|]]; [cbn; lia| |cbn in Hq; lia].
  unfold poly_mul, dict_times. cbn [fold_left times_step rbind fst snd]. rewrite !andb_false_r. cbn. lia.
Qed.

Lemma mono_algebra : piece_algebra key_alg key_two mono_wf key_den.
Proof.
  destruct key_algebra as [H1 H2 H3 H4 H5 H6 H7 H8]. split.
  - intros q. destruct (H1 q). split; [|done]. by split; [|cbn].
  - intros x. destruct (H2 x). split; [|done]. by split; [|cbn].
  - done.
  - intros a b [Wa Ma] [Wb Mb]. destruct (H4 a b Wa Wb) as [W D]. split; [|done]. split; [done|].
    unfold alg_times, alg_zero, alg_one. destruct (_ || _); [cbn; lia|]. destruct (a_eq _ a _); [done|]. destruct (a_eq _ b _); [done|].
    cbn [key_alg a_mul]. destruct a as [x|p], b as [y|q]; cbn [key_mul mono_key] in *; try done; apply mul_mono; done || (cbn; lia).
  - intros a b e [Wa _] [Wb _]. by apply H5.
  - intros a [Wa _]. by apply H6.
  - intros a b [Wa _] [Wb _]. by apply H7.
  - intros a b c [Wa _] [Wb _] [Wc _]. by apply H8.
Qed.

Lemma split_exclusive simplify w p : sound_simplifier simplify -> split_weight simplify true w = Ok p -> exclusive_terms p.
Proof.
  intros HS Hp. destruct (walk_value key_alg key_two mono_wf key_den simplify mono_algebra HS _ w p Hp) as (_ & HK & _).
  intros before k c after k' c' t e -> Hin Ht Ht' _ _. apply keys_app in HK as (_ & HK & _).
  inversion HK as [|? ? ? [Wk Mk] HK' HF]; subst. rewrite Forall_forall in HF. specialize (HF _ Hin). cbn [fst] in HF.
  destruct (keys_wf _ _ _ _ HK' Hin) as [Wk' Mk']. cbn [fst] in *.
  destruct k as [x|q], k' as [y|q']; cbn in Ht, Ht', Mk, Mk'; try done.
  assert (forall l : list (list string * Qc), length l <= 1 -> t ∈ l -> l = [t]) as HL.
  { intros [|u [|]] Hl Hu; [by apply elem_of_nil in Hu|by apply elem_of_list_singleton in Hu as ->|cbn in Hl; lia]. }
  rewrite (HL q), (HL q') in HF by done. destruct t as [m x]. cbn in HF. rewrite decide_True, bool_decide_eq_true_2 in HF; done.
Qed.
