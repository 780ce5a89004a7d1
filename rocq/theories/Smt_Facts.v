(** Facts about the meaning of formulas used in several areas. *)

From Verif Require Import Base Smt.

Lemma mapM_ext_in {A B} (f g : A -> option B) l :
  (forall x, x ∈ l -> f x = g x) -> mapM f l = mapM g l.
Proof.
  induction l as [|x l IH]; intros H; cbn; [done|]. rewrite (H x) by by left.
  rewrite IH; [done|]. intros y Hy. apply H. by right.
Qed.

(** Two assignments agree on the symbols of a formula. *)
Definition agree (e e' : env) (f : fm) : Prop :=
  forall x t, (x, t) ∈ syms f ->
    match t with TBool => eb e x = eb e' x | _ => er e x = er e' x end.

Lemma agree_list e e' l g : g ∈ l ->
  (forall x t, (x, t) ∈ concat (map syms l) -> match t with TBool => eb e x = eb e' x | _ => er e x = er e' x end) ->
  agree e e' g.
Proof.
  intros Hg H x t Hx. apply H. apply elem_of_list_In, in_concat. exists (syms g).
  split; [|by apply elem_of_list_In]. apply in_map. by apply elem_of_list_In.
Qed.

Lemma eval_agree e e' f : agree e e' f -> eval e f = eval e' f.
Proof.
  induction f using fm_ind'; intros HA; cbn [eval].
  - pose proof (HA n t) as H. destruct t; rewrite H; try done; by left.
  - done.
  - done.
  - done.
  - f_equal. apply mapM_ext_in. intros g Hg. rewrite Forall_forall in H. rewrite H; [done|done|].
    by apply (agree_list e e' l).
  - f_equal. apply mapM_ext_in. intros g Hg. rewrite Forall_forall in H. rewrite H; [done|done|].
    by apply (agree_list e e' l).
  - by rewrite IHf.
  - rewrite IHf1, IHf2; [done|..]; intros x t Hx; apply HA; cbn [syms]; rewrite elem_of_app; auto.
  - rewrite IHf1, IHf2; [done|..]; intros x t Hx; apply HA; cbn [syms]; rewrite elem_of_app; auto.
  - rewrite IHf1, IHf2, IHf3; [done|..]; intros x t Hx; apply HA; cbn [syms]; rewrite !elem_of_app; auto.
  - f_equal. apply mapM_ext_in. intros g Hg. rewrite Forall_forall in H. rewrite H; [done|done|].
    by apply (agree_list e e' l).
  - rewrite IHf1, IHf2; [done|..]; intros x t Hx; apply HA; cbn [syms]; rewrite elem_of_app; auto.
  - f_equal. apply mapM_ext_in. intros g Hg. rewrite Forall_forall in H. rewrite H; [done|done|].
    by apply (agree_list e e' l).
  - rewrite IHf1, IHf2; [done|..]; intros x t Hx; apply HA; cbn [syms]; rewrite elem_of_app; auto.
  - rewrite IHf1, IHf2; [done|..]; intros x t Hx; apply HA; cbn [syms]; rewrite elem_of_app; auto.
  - rewrite IHf1, IHf2; [done|..]; intros x t Hx; apply HA; cbn [syms]; rewrite elem_of_app; auto.
  - rewrite IHf1, IHf2; [done|..]; intros x t Hx; apply HA; cbn [syms]; rewrite elem_of_app; auto.
  - done.
  - by rewrite IHf.
Qed.

Lemma eval_ext e e' f : (forall x, eb e x = eb e' x) -> (forall x, er e x = er e' x) -> eval e f = eval e' f.
Proof. intros H1 H2. apply eval_agree. intros x [] _; auto. Qed.

Lemma eval_AndN2 e f g :
  eval e (AndN [f; g]) = (a ← vbool (eval e f); b ← vbool (eval e g); Some (VB (a && b))).
Proof.
  cbn [eval mapM]. destruct (vbool (eval e f)) as [a|]; [|done]. cbn.
  destruct (vbool (eval e g)) as [b|]; [|done]. cbn. unfold id. by rewrite andb_true_r.
Qed.

(** A well typed boolean formula without exponentials of odd kind has a value. *)
Lemma eval_NotN_true e f : eval e (NotN f) = Some (VB true) <-> eval e f = Some (VB false).
Proof. cbn [eval]. destruct (eval e f) as [[[]|]|]; cbn; split; congruence. Qed.
