(** Vocabulary for C55: how LattE reads its input files. *)

From Verif Require Import Base Smt Math_Spec.

(** A row [b, c1, ..., cn] of an H-representation stands for b + c1 x1 + ... + cn xn >= 0. *)
Definition row_value (e : env) (vars : list string) (row : list Z) : Qc :=
  qsum (zip_with (fun c x => (qz c * x)%Qc) row (1%Qc :: map (er e) vars)).

(** The polytope: all rows are non-negative. *)
Definition in_polytope (e : env) (vars : list string) (rows : list (list Z)) : Prop :=
  Forall (fun row => (0 <= row_value e vars row)%Qc) rows.

(** A list of monomials [(c, [n1, ..., nk])] stands for the sum of c x1^n1 ... xk^nk. *)
Definition monomials_value (e : env) (vars : list string) (ms : list (Qc * list nat)) : Qc :=
  qsum (map (fun m => (m.1 * qprod (zip_with (fun x n => qpow x n) (map (er e) vars) m.2))%Qc) ms).

(** The inequality objects of the code: distinct linear terms over [vars], no zero
    coefficient, and coefficients with small denominators ([M] is a common one). *)
Definition usable_bound (vars : list string) (M : Z) (d : list (list string * Qc)) : Prop :=
  d <> [] /\ NoDup (map fst d) /\
  forall k v, (k, v) ∈ d -> v <> 0%Qc /\ (k = [] \/ exists x, k = [x] /\ x ∈ vars) /\
    (Zpos (Qden (this v)) <= 10 ^ 6)%Z /\ (Zpos (Qden (this v)) | M)%Z.

(** Where the inequality [sum of terms <= 0] holds. *)
Definition bound_holds (e : env) (d : list (list string * Qc)) : Prop := (poly_val e d <= 0)%Qc.
