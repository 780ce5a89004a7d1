(** Model of RejectionIntegrator in pywmi/engines/rejection.py and of
    EngineConvexIntegrationBackend in pywmi/engines/convex_integrator.py.

    [linprog] is scipy.optimize.linprog called with its default bounds: the solution
    vector, or None when there is none (indexing it then raises TypeError).  [std] is
    numpy's standard deviation of a non-empty column. *)

From Verif Require Import Base Dict Smt Math_Model Domain_Model Sample_Model.

(** [smt.And] of the bounds written as formulas.  rejection.py:126, convex_integrator.py:23 *)
Definition bounds_formula (bounds : list pdict) : Res fm :=
  let! fs := rmapM li_to_smt bounds in Ok (mkAnd fs).

(** [c] with [c[j] = 1], the other entries zero.  rejection.py:139-141 *)
Definition unit_vec (m j : nat) : list Qc := <[j := 1%Qc]> (replicate m 0%Qc).

(** Sorting of one column ([samples.sort(axis=0)] sorts each on its own). *)
Fixpoint insert_sorted (x : Qc) (l : list Qc) : list Qc :=
  match l with [] => [x] | y :: l' => if qle x y then x :: l else y :: insert_sorted x l' end.
Definition sort_column (l : list Qc) : list Qc := fold_right insert_sorted [] l.

(** [abs(samples[0:-1] - samples[1:])] for one column. *)
Fixpoint gaps (l : list Qc) : list Qc :=
  match l with x :: (y :: _) as l' => qabs (x - y) :: gaps l' | _ => [] end.

Section integrator.
  Variable linprog : list Qc -> list (list Qc) -> list Qc -> option (list Qc).
  Variable std : list Qc -> Qc.

  (** [linprog(c, a_matrix, b_matrix).x[j]] *)
  Definition lp_entry (c : list Qc) (a : list (list Qc)) (b : list Qc) (j : nat) : Res Qc :=
    match linprog c a b with
    | Some x => match x !! j with Some q => Ok q | None => Err IndexError end
    | None => Err TypeError
    end.

  (** rejection.py:130-148, bounding_box = 1 *)
  Definition box_linprog (d : domain) (bounds : list pdict) : Res (list (string * interval)) :=
    let! rs := real_vars d in
    let a := map (fun bound => map (fun v => li_coefficient bound [v]) rs) bounds in
    let b := map li_b bounds in
    rmapM (fun jv : nat * string =>
      let c := unit_vec (length rs) (fst jv) in
      let! lb := lp_entry c a b (fst jv) in
      let! ub := lp_entry (map Qcopp c) a b (fst jv) in
      Ok (snd jv, (Some lb, Some ub))) (zip (seq 0 (length rs)) rs).

  (** rejection.py:154-165, the interval of one column.  One row: the standard deviation
      of no gaps is not a number; what follows is not modelled. *)
  Definition column_interval (col : list Qc) : Res interval :=
    let col := sort_column col in
    match head col, last col, gaps col with
    | Some lo, Some hi, [] => Err NotImplemented
    | Some lo, Some hi, gs => Ok (Some (lo - std gs)%Qc, Some (hi + std gs)%Qc)
    | _, _, _ => Err IndexError
    end.

  (** rejection.py:149-165, bounding_box = 2; [rg] is the generator of the integrator.  No
      row: [samples[0, :]] raises IndexError, which [except ValueError] does not catch. *)
  Definition box_sampled (d : domain) (formula : fm) (n : nat) (rg : rng) :
      Res (list (string * interval) * rng) :=
    let! sg := uniform d n None rg in
    let! vs := evaluate_rows d formula (fst sg) in
    let! labels := mask vs in
    let samples := select labels (fst sg) in
    let! is := match samples with
               | [] => Err IndexError
               | _ => rmapM column_interval (columns (length (d_vars d)) samples)
               end in
    Ok (zip (d_vars d) is, snd sg).

  (** rejection.py:123-176 RejectionIntegrator.integrate.  [fresh] is the generator the
      RejectionEngine makes from the seed, [rg] the one kept by the integrator. *)
  Definition integrate (d : domain) (bounds : list pdict) (polynomial : pdict) (bounding_box : Z) (n : nat)
      (fresh rg : rng) : Res (Qc * rng) :=
    let! formula := bounds_formula bounds in
    let! dr :=
      if (0 <? bounding_box)%Z then
        let! br :=
          if (bounding_box =? 1)%Z then let! b := box_linprog d bounds in Ok (b, rg)
          else if (bounding_box =? 2)%Z then box_sampled d formula n rg
          else Err ValueError in
        Ok (Dom (d_vars d) (d_types d) (fst br), snd br)
      else Ok (d, rg) in
    let! weight := poly_to_smt polynomial in
    let! vg := compute_volume (fst dr) formula (Some weight) n None fresh in
    Ok (fst vg, snd dr).
End integrator.

(** convex_integrator.py:22-24 EngineConvexIntegrationBackend.integrate; [volume] is
    [engine.copy(domain, support, weight).compute_volume()]. *)
Definition engine_integrate {A} (volume : domain -> fm -> fm -> Res A) (d : domain) (bounds : list pdict)
    (polynomial : pdict) : Res A :=
  let! formula := bounds_formula bounds in
  let! weight := poly_to_smt polynomial in
  volume d formula weight.
