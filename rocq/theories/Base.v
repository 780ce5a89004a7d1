(** Shared vocabulary: Python exceptions as values, and exact rationals.

    Nothing in this file models a particular function of the repository; it only
    fixes the representation of numbers and failures used by all model files. *)

From Coq Require Export QArith Qcanon Lqa Lia.
From Coq Require Export Ascii String.
From stdpp Require Export base numbers list strings option sorting.

Global Set Default Goal Selector "!".
Global Unset Program Cases.
Global Arguments String.append : simpl nomatch.

(** * Exceptions *)

(** The Python exception classes the modelled functions can raise.
    [OutOfFuel] is not a Python exception: it marks an execution that was cut
    short by the fuel given to a model function; theorems exclude it. *)
Inductive exn :=
| IndexError | AttributeError | TypeError | ValueError | KeyError | RuntimeErr
| AssertionError | ZeroDivisionError | NotImplemented | GenericException
| PysmtTypeError | PysmtValueError | ParsingError | SamplingError | FileNotFoundErr | OutOfFuel.

Inductive Res (A : Type) :=
| Ok (a : A)
| Err (e : exn).
Arguments Ok {A} a.
Arguments Err {A} e.

Definition rbind {A B} (r : Res A) (k : A -> Res B) : Res B :=
  match r with Ok a => k a | Err e => Err e end.

Definition rmap {A B} (f : A -> B) (r : Res A) : Res B :=
  match r with Ok a => Ok (f a) | Err e => Err e end.

Notation "'let!' x := r 'in' k" := (rbind r (fun x => k))
  (at level 200, x pattern, r at level 100, k at level 200, right associativity).

Definition is_ok {A} (r : Res A) : bool :=
  match r with Ok _ => true | Err _ => false end.

(** Left-to-right evaluation of a list comprehension whose body may raise. *)
Definition rmapM {A B} (f : A -> Res B) : list A -> Res (list B) :=
  fix go (l : list A) : Res (list B) :=
    match l with
    | [] => Ok []
    | x :: xs => let! y := f x in let! ys := go xs in Ok (y :: ys)
    end.

(** * Exact rationals *)

Global Instance Qc_inhabited : Inhabited Qc := populate 0%Qc.

(** Boolean comparisons on [Qc]. *)
Definition qle (x y : Qc) : bool := Qle_bool (this x) (this y).
Definition qlt (x y : Qc) : bool := negb (Qle_bool (this y) (this x)).
Definition qeq (x y : Qc) : bool := Qeq_bool (this x) (this y).

Definition qz (z : Z) : Qc := Q2Qc (inject_Z z).
Definition qn (n : nat) : Qc := qz (Z.of_nat n).

(** Sum and product of a list of rationals. *)
Definition qsum (l : list Qc) : Qc := fold_right Qcplus 0%Qc l.
Definition qprod (l : list Qc) : Qc := fold_right Qcmult 1%Qc l.

(** Natural powers. *)
Fixpoint qpow (x : Qc) (n : nat) : Qc :=
  match n with O => 1%Qc | S n => (x * qpow x n)%Qc end.

Definition qabs (x : Qc) : Qc := if qle 0 x then x else (- x)%Qc.

Lemma qle_spec x y : qle x y = true <-> (x <= y)%Qc.
Proof. unfold qle, Qcle. apply Qle_bool_iff. Qed.

Lemma qle_false x y : qle x y = false <-> (y < x)%Qc.
Proof.
  unfold qle, Qclt. split.
  - intros H. apply Qnot_le_lt. intros H'. apply Qle_bool_iff in H'. congruence.
  - intros H. destruct (Qle_bool x y) eqn:E; [|done].
    apply Qle_bool_iff in E. exfalso. eapply Qle_not_lt; eauto.
Qed.

Lemma qlt_spec x y : qlt x y = true <-> (x < y)%Qc.
Proof.
  unfold qlt. rewrite negb_true_iff. apply qle_false.
Qed.

Lemma qlt_false x y : qlt x y = false <-> (y <= x)%Qc.
Proof. unfold qlt. rewrite negb_false_iff. apply qle_spec. Qed.

Lemma qeq_spec x y : qeq x y = true <-> x = y.
Proof.
  unfold qeq. rewrite Qeq_bool_iff. split.
  - apply Qc_is_canon.
  - intros ->. reflexivity.
Qed.

Lemma qeq_false x y : qeq x y = false <-> x <> y.
Proof.
  rewrite <- qeq_spec. destruct (qeq x y); split; try done.
Qed.

Lemma Qc_eq_this (x y : Qc) : x = y <-> (this x == this y)%Q.
Proof. split; [intros ->; reflexivity|apply Qc_is_canon]. Qed.

(** Moving a goal over [Qc] to one over [Q], where [lra]/[ring] apply. *)
Ltac qc2q :=
  repeat match goal with
         | H : @eq Qc _ _ |- _ => apply Qc_eq_this in H
         | H : ~ (@eq Qc _ _) |- _ => rewrite Qc_eq_this in H
         end;
  try match goal with |- @eq Qc _ _ => apply Qc_is_canon end;
  try match goal with |- ~ (@eq Qc _ _) => rewrite Qc_eq_this end;
  unfold Qcle, Qclt, Qcminus, Qcplus, Qcmult, Qcopp, qz in *;
  cbn [this Q2Qc] in *;
  rewrite ?Qred_correct in *.

Ltac qclra := intros; qc2q; lra.
Ltac qcnra := intros; qc2q; nra.

Lemma qle_refl x : qle x x = true.
Proof. apply qle_spec. qclra. Qed.

Lemma qcle_antisym (x y : Qc) : (x <= y)%Qc -> (y <= x)%Qc -> x = y.
Proof. intros. qclra. Qed.

Lemma qsum_app l k : qsum (l ++ k) = (qsum l + qsum k)%Qc.
Proof. induction l as [|x l IH]; simpl; [ring|]. rewrite IH. ring. Qed.

Lemma qprod_app l k : qprod (l ++ k) = (qprod l * qprod k)%Qc.
Proof. induction l as [|x l IH]; simpl; [ring|]. rewrite IH. ring. Qed.

Lemma qpow_add x n m : qpow x (n + m) = (qpow x n * qpow x m)%Qc.
Proof. induction n as [|n IH]; simpl; [ring|]. rewrite IH. ring. Qed.

Lemma qpow_mul x y n : qpow (x * y) n = (qpow x n * qpow y n)%Qc.
Proof. induction n as [|n IH]; simpl; [ring|]. rewrite IH. ring. Qed.

Lemma rmapM_nil {A B} (f : A -> Res B) : rmapM f [] = Ok [].
Proof. done. Qed.
Lemma rmapM_cons {A B} (f : A -> Res B) x xs :
  rmapM f (x :: xs) = let! y := f x in let! ys := rmapM f xs in Ok (y :: ys).
Proof. done. Qed.

Lemma rmapM_ok_length {A B} (f : A -> Res B) l ys :
  rmapM f l = Ok ys -> length ys = length l.
Proof.
  revert ys. induction l as [|x l IH]; intros ys H; simpl in *.
  - by inversion H.
  - destruct (f x); simpl in H; [|done].
    destruct (rmapM f l); simpl in H; [|done].
    inversion H; subst. simpl. by rewrite (IH a0).
Qed.

Lemma rmapM_Forall2 {A B} (f : A -> Res B) l ys :
  rmapM f l = Ok ys <-> Forall2 (fun x y => f x = Ok y) l ys.
Proof.
  split.
  - revert ys. induction l as [|x l IH]; intros ys H; simpl in *.
    + inversion H. constructor.
    + destruct (f x) eqn:E; simpl in H; [|done].
      destruct (rmapM f l); simpl in H; [|done].
      inversion H; subst. constructor; [done|]. by apply IH.
  - induction 1 as [|x y l ys Hxy _ IH]; simpl; [done|].
    by rewrite Hxy, IH.
Qed.

(** Closed decidable goals by computation. *)
Ltac dec := match goal with |- ?P => apply (bool_decide_unpack P); vm_compute; exact I end.
