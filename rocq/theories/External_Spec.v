(** What the engines around external solvers are expected to do. *)

From Verif Require Import Base Dict Smt Domain_Model Domain_Spec.

(** The problem restricted to the box of the domain: [s'] holds where [s] holds and every
    real variable is inside its interval. *)
Definition restricted (d : domain) (s s' : fm) : Prop := forall e b, eval e s = Some (VB b) ->
  (exists b', eval e s' = Some (VB b')) /\
  (eval e s' = Some (VB true) <-> b = true /\ forall v i, (v, i) ∈ d_doms d -> inside (er e v) i).

(** The bounds of the domain are floating-point numbers. *)
Definition float_bounds (fl : Qc -> Qc) (d : domain) : Prop :=
  forall v lb ub q, (v, (lb, ub)) ∈ d_doms d -> lb = Some q \/ ub = Some q -> fl q = q.

(** A notion of volume: formulas with the same values have the same volume. *)
Definition volume_like (V : fm -> fm -> Qc) : Prop :=
  forall s s' w, (forall e, eval e s = Some (VB true) <-> eval e s' = Some (VB true)) -> V s w = V s' w.

(** * The text printed by the XADD program *)

Definition newline : ascii := Ascii.ascii_of_nat 10.
Definition digit (c : ascii) : Prop := c ∈ ["0"; "1"; "2"; "3"; "4"; "5"; "6"; "7"; "8"; "9"]%char.

(** A decimal number with an optional exponent, such as -12.5 or 1.0E-3. *)
Definition numeral (a : list ascii) : Prop := exists sign i f ex es ed,
  a = sign ++ i ++ ["."%char] ++ f ++ ex ++ es ++ ed /\
  sign ∈ [[]; ["-"%char]] /\ i <> [] /\ Forall digit i /\ f <> [] /\ Forall digit f /\
  ex ∈ [[]; ["E"%char]] /\ es ∈ [[]; ["-"%char]] /\ Forall digit ed.

(** A line with a result: two numbers. *)
Definition result_line (l a b : list ascii) : Prop := l = a ++ [" "%char] ++ b /\ numeral a /\ numeral b.

(** Lines separated by line ends. *)
Fixpoint joined (first : list ascii) (lines : list (list ascii)) : list ascii :=
  match lines with [] => first | l :: lines => first ++ newline :: joined l lines end.

(** All results, in order. *)
Inductive results : list (list ascii) -> list (list ascii * list ascii) -> Prop :=
| rs_nil : results [] []
| rs_other l ls rs : (forall a b, ~ result_line l a b) -> results ls rs -> results (l :: ls) rs
| rs_result l a b ls rs : result_line l a b -> results ls rs -> results (l :: ls) ((a, b) :: rs).

(** The results that are read: the last line is not looked at, nor the line after a
    result. *)
Inductive results_read : list (list ascii) -> list (list ascii * list ascii) -> Prop :=
| rr_nil : results_read [] []
| rr_last l : results_read [l] []
| rr_other l m ls rs : (forall a b, ~ result_line l a b) -> results_read (m :: ls) rs -> results_read (l :: m :: ls) rs
| rr_result l m a b ls rs : result_line l a b -> results_read ls rs -> results_read (l :: m :: ls) ((a, b) :: rs).

(** No two results on consecutive lines, and none on the last line. *)
Fixpoint spaced (lines : list (list ascii)) : Prop :=
  match lines with
  | l :: ((m :: _) as ls) => ((exists a b, result_line l a b) -> forall a b, ~ result_line m a b) /\ spaced ls
  | [l] => forall a b, ~ result_line l a b
  | [] => True
  end.
