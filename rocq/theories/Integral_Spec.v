(** Vocabulary for C48-C51: the integral over an interval of a function of one
    variable that is a polynomial on each of finitely many subintervals. *)

From Verif Require Import Base.

(** The polynomial with the coefficients [cs] (constant term first). *)
Fixpoint pol (cs : list Qc) (x : Qc) : Qc :=
  match cs with [] => 0%Qc | c :: cs => (c + x * pol cs x)%Qc end.

(** The coefficients of its antiderivative: [c_i x^i] becomes [c_i / (i+1) x^(i+1)]. *)
Fixpoint divided (n : nat) (cs : list Qc) : list Qc :=
  match cs with [] => [] | c :: cs => (c / qn n)%Qc :: divided (S n) cs end.
Definition primitive (cs : list Qc) : list Qc := 0%Qc :: divided 1 cs.

(** [integral F a b v]: the integral from [a] to [b], [a <= b], of the function [F]
    ([F t y]: the value at [t] is [y]) is [v].  The values at the end points of the
    pieces do not matter. *)
Inductive integral (F : Qc -> Qc -> Prop) : Qc -> Qc -> Qc -> Prop :=
| in_piece a b cs : (a <= b)%Qc -> (forall t, (a < t)%Qc -> (t < b)%Qc -> F t (pol cs t)) ->
    integral F a b (pol (primitive cs) b - pol (primitive cs) a)%Qc
| in_join a c b v w : integral F a c v -> integral F c b w -> integral F a b (v + w)%Qc.
