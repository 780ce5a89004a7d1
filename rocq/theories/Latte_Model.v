(** Model of pywmi/engines/latte_backend.py: what is written for LattE.

    The two input files are modelled as their tokens: a list of rows of integers,
    and a list of monomials (coefficient, exponents).  The text layout (spaces,
    brackets, commas), the temporary files and the shell command are not modelled;
    the program itself is an argument. *)

From Verif Require Import Base Dict Smt Math_Model.

(** [Fraction.limit_denominator(10**6)] of the Python standard library (3.7-3.11):
    the closest fraction with a denominator of at most [10^6], by continued
    fractions.  The loop runs at most twice the number of bits of the denominator. *)
Definition max_den : Z := 1000000.
Fixpoint limit_loop (fuel : nat) (p0 q0 p1 q1 n d : Z) : Z * Z * Z * Z :=
  match fuel with
  | 0 => (p0, q0, p1, q1)
  | S fuel =>
      let a := (n / d)%Z in
      let q2 := (q0 + a * q1)%Z in
      if (max_den <? q2)%Z then (p0, q0, p1, q1)
      else limit_loop fuel p1 q1 (p0 + a * p1) q2 d (n - a * d)
  end.
Definition limit_denominator (v : Qc) : Qc :=
  let d := Qden (this v) in
  if (Zpos d <=? max_den)%Z then v
  else
    let '(p0, q0, p1, q1) := limit_loop (2 * Pos.to_nat (Pos.size d) + 2) 0 1 1 0 (Qnum (this v)) (Zpos d) in
    let k := ((max_den - q0) / q1)%Z in
    let bound1 := (qz (p0 + k * p1) / qz (q0 + k * q1))%Qc in
    let bound2 := (qz p1 / qz q1)%Qc in
    if qle (qabs (bound2 - v)) (qabs (bound1 - v)) then bound2 else bound1.

(** One row: [[integer_bound.b()] + [-integer_bound.a(v) for v in domain.real_vars]];
    the values of a scaled inequality are integers ([trunc] only changes the type).
    latte_backend.py:54-57 *)
Definition latte_row (vars : list string) (bound : pdict) : Res (list Z) :=
  let! i := li_scale_to_integer limit_denominator bound in
  Ok (map trunc (li_b i :: map (fun v => (- li_coefficient i [v])%Qc) vars)).
Definition latte_rows (vars : list string) (bounds : list pdict) : Res (list (list Z)) :=
  rmapM (latte_row vars) bounds.

(** key_to_exponents.  latte_backend.py:46-48 *)
Definition key_to_exponents (vars : list string) (key : mono) : list nat :=
  map (fun v => length (List.filter (fun u => bool_decide (u = v)) key)) vars.

(** The monomials.  latte_backend.py:59-60 *)
Definition latte_monomials (vars : list string) (p : pdict) : list (Qc * list nat) :=
  map (fun kv => (limit_denominator kv.2, key_to_exponents vars kv.1)) p.

(** integrate: [run rows monomials] is the external program: [None] for a non-zero
    exit code, [Some None] when its output shows no answer of the form n/d, and
    [Some (Some (n, d))] otherwise.  [unsat] is whether the solver finds the
    conjunction of the scaled bounds unsatisfiable.  Result as an exact number (the
    code rounds it to a float).  latte_backend.py:50-88 *)
Definition latte_integrate (run : list (list Z) -> list (Qc * list nat) -> option (option (Z * Z)))
    (unsat : bool) (vars : list string) (bounds : list pdict) (p : pdict) : Res Qc :=
  let! rows := latte_rows vars bounds in
  match run rows (latte_monomials vars p) with
  | None => if unsat then Ok 0%Qc else Err RuntimeErr       (* CalledProcessError re-raised *)
  | Some None => Ok 0%Qc
  | Some (Some (n, d)) => if (d =? 0)%Z then Err ZeroDivisionError else Ok (qz n / qz d)%Qc
  end.
