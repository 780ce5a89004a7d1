(** Vocabulary for evaluation on samples (C03, C04). *)

From Verif Require Import Base Smt.

(** The assignment [e] gives the variables the values of a sample: number [q] in
    column [k] is the value of variable [k]; a boolean is true iff its column is
    not zero. *)
Definition gives (e : env) (x : string) (q : Qc) : Prop :=
  er e x = q /\ eb e x = negb (qeq q 0).

Definition agrees (vars : list string) (sample : list Qc) (e : env) : Prop :=
  forall k x, vars !! k = Some x -> exists q, sample !! k = Some q /\ gives e x q.

(** The assignment given by row [i] of a table stored by columns. *)
Definition agrees_row (vars : list string) (columns : list (list Qc)) (i : nat) (e : env) : Prop :=
  forall k x, vars !! k = Some x ->
    exists col q, columns !! k = Some col /\ col !! i = Some q /\ gives e x q.

(** All symbols of the formula are variables of the domain. *)
Definition over (vars : list string) (f : fm) : Prop :=
  forall x t, (x, t) ∈ syms f -> x ∈ vars.

(** An assignment dictionary agrees with [e] on the symbols of the formula. *)
Definition assigns (asg : string -> option val) (e : env) (f : fm) : Prop :=
  forall x t, (x, t) ∈ syms f ->
    asg x = Some (match t with TBool => VB (eb e x) | _ => VN (er e x) end).

(** * Aliasing (C04) *)

From Verif Require Import Walk_Model Check_Model.

(** An array handed out (returned by a walk) is not written afterwards. *)
Definition no_write_after_return (evs : list event) : Prop :=
  forall before r after, evs = before ++ Ret r :: after -> Wr r ∉ after.

(** The events of the run from [s] to [s']. *)
Definition events (s s' : st) (evs : list event) : Prop := trace s' = trace s ++ evs.

(** All arrays that exist in [s] have the same contents in [s']. *)
Definition unchanged (s s' : st) : Prop :=
  forall r a, heap s !! r = Some a -> heap s' !! r = Some a.

(** Cached references point to existing arrays. *)
Definition cache_valid (s : st) : Prop :=
  forall f r, (f, r) ∈ cache s -> r < length (heap s).

(** One checker object asked for the values of several formulas in turn
    (its cache and arrays live on between the calls). *)
Fixpoint walks (vars : list string) (len : nat) (two_d : bool) (fs : list fm) (s : st) : st :=
  match fs with
  | [] => s
  | f :: fs => walks vars len two_d fs (fst (batch vars len two_d (msize f) f s))
  end.
