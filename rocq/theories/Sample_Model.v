(** Model of pywmi/sample.py and of RejectionEngine in pywmi/engines/rejection.py.

    Numbers are exact rationals; a table is a list of rows.  A random generator is an
    arbitrary infinite source of numbers (for [random]) and of choices (for [choice]),
    read from a position on. *)

From Coq Require Import Qround.
From Verif Require Import Base Dict Smt Walk_Model Check_Model Domain_Model.

Record rng := Rng { draws : nat -> Qc; picks : nat -> nat; pos : nat }.

(** [rand_gen.random()] *)
Definition rand (g : rng) : Qc * rng := (draws g (pos g), Rng (draws g) (picks g) (S (pos g))).

(** [rand_gen.random((n, m))], filled row by row. *)
Fixpoint rand_row (m : nat) (g : rng) : list Qc * rng :=
  match m with
  | 0 => ([], g)
  | S m => let '(u, g) := rand g in let '(us, g) := rand_row m g in (u :: us, g)
  end.
Fixpoint rand_table (n m : nat) (g : rng) : list (list Qc) * rng :=
  match n with
  | 0 => ([], g)
  | S n => let '(r, g) := rand_row m g in let '(rs, g) := rand_table n m g in (r :: rs, g)
  end.

(** [rand_gen.choice(l)] *)
Definition choice (l : list nat) (g : rng) : Res (nat * rng) :=
  match l !! (picks g (pos g) mod length l) with
  | Some x => Ok (x, Rng (draws g) (picks g) (S (pos g)))
  | None => Err ValueError
  end.

(** sample.py:15-20, what happens to the numbers of one column. *)
Definition column (d : domain) (v : string) : Res (Qc -> Qc) :=
  let! t := ditem (d_types d) v in
  if decide (t = TBool) then Ok (fun u => if qlt u (Q2Qc (1 # 2)) then 1%Qc else 0%Qc)
  else
    let! b := ditem (d_doms d) v in
    match b with
    | (Some lb, Some ub) => Ok (fun u => lb + u * (ub - lb))%Qc
    | _ => Err TypeError
    end.

(** sample.py:27-30, one row and one one-hot group. *)
Definition one_hot (row : list Qc) (ohe : list nat) (g : rng) : Res (list Qc * rng) :=
  let row := fold_left (fun row x => <[x := 0%Qc]> row) ohe row in
  let! xg := choice ohe g in Ok (<[fst xg := 1%Qc]> row, snd xg).

Fixpoint one_hots (row : list Qc) (groups : list (list nat)) (g : rng) : Res (list Qc * rng) :=
  match groups with
  | [] => Ok (row, g)
  | ohe :: groups => let! rg := one_hot row ohe g in one_hots (fst rg) groups (snd rg)
  end.

Fixpoint one_hot_rows (rows : list (list Qc)) (groups : list (list nat)) (g : rng) : Res (list (list Qc) * rng) :=
  match rows with
  | [] => Ok ([], g)
  | row :: rows =>
      let! rg := one_hots row groups g in
      let! rsg := one_hot_rows rows groups (snd rg) in Ok (fst rg :: fst rsg, snd rsg)
  end.

(** sample.py:12-32 uniform. *)
Definition uniform (d : domain) (n : nat) (ohe : option (list (list string))) (g : rng) :
    Res (list (list Qc) * rng) :=
  let '(us, g) := rand_table n (length (d_vars d)) g in
  let! cs := rmapM (column d) (d_vars d) in
  let samples := map (fun u => zip_with (fun c x => c x) cs u) us in
  match ohe with
  | None => Ok (samples, g)
  | Some gs =>
      let! idx := rmapM (rmapM (list_index (d_vars d))) gs in
      one_hot_rows samples idx g
  end.

(** * Weighted resampling *)

Section weighted.
  Context {V : Type}.
  (** [u ** (1.0 / n)] *)
  Variable root : nat -> Qc -> Qc.

  (** sample.py:43-46, the inner loop.  The remaining pool is given as pairs of weight
      and value; running past its end raises. *)
  Fixpoint skip (x w : Qc) (v : V) (rest : list (Qc * V)) : Res (Qc * Qc * V * list (Qc * V)) :=
    if qlt w x then
      match rest with
      | [] => Err IndexError
      | (w', v') :: rest => skip (x - w)%Qc w' v' rest
      end
    else Ok (x, w, v, rest).

  (** sample.py:40-49, the outer loop. *)
  Fixpoint resample (n : nat) (total w : Qc) (v : V) (rest : list (Qc * V)) (g : rng) : Res (list V * rng) :=
    match n with
    | 0 => Ok ([], g)
    | S n' =>
        let '(u, g) := rand g in
        let x := (total * (1 - root n u))%Qc in
        let! s := skip x w v rest in
        let '(x', w', v', rest') := s in
        let! vsg := resample n' (total - x)%Qc (w' - x')%Qc v' rest' g in
        Ok (v' :: fst vsg, snd vsg)
    end.

  (** sample.py:35-49 weighted_sample; [weights] and [values] zipped. *)
  Definition weighted_sample (pool : list (Qc * V)) (n : nat) (g : rng) : Res (list V * rng) :=
    match pool with
    | [] => Err IndexError
    | (w, v) :: rest => resample n (qsum (map fst pool)) w v rest g
    end.
End weighted.

(** * Evaluation on a table of rows *)

(** The columns of a table with [m] columns (all rows have length [m]). *)
Definition columns (m : nat) (rows : list (list Qc)) : list (list Qc) :=
  map (fun j => map (fun row => default 0%Qc (row !! j)) rows) (seq 0 m).

(** [evaluate(domain, formula, samples)] on a two-dimensional array. *)
Definition evaluate_rows (d : domain) (f : fm) (rows : list (list Qc)) : Res (list val) :=
  let! o := evaluate (d_vars d) f (Arr2 (length rows) (columns (length (d_vars d)) rows)) in
  match o with Array a => Ok a | Scalar _ => Err TypeError end.

(** Labels used as a mask: they have to be booleans. *)
Definition mask (vs : list val) : Res (list bool) :=
  rmapM (fun v => match v with VB b => Ok b | VN _ => Err IndexError end) vs.
Definition numbers (vs : list val) : Res (list Qc) :=
  rmapM (fun v => match v with VN q => Ok q | VB _ => Err TypeError end) vs.

(** [samples[labels]] *)
Definition select {A} (labels : list bool) (xs : list A) : list A :=
  map snd (filter (fun p : bool * A => fst p = true) (zip labels xs)).

Definition count_true (labels : list bool) : nat := length (select labels labels).

(** * Samples of the support *)

(** [a or b] on an optional number: zero counts as absent. *)
Definition or_nat (a : option nat) (b : nat) : nat :=
  match a with Some (S k) => S k | _ => b end.

Section positive.
  Variable root : nat -> Qc -> Qc.
  Variables (d : domain) (support : fm).

  (** sample.py:57-59 and 71-73: draw and keep the accepted rows. *)
  Definition accepted (n : nat) (g : rng) : Res (list (list Qc) * rng) :=
    let! sg := uniform d n None g in
    let! vs := evaluate_rows d support (fst sg) in
    let! ls := mask vs in
    Ok (select ls (fst sg), snd sg).

  (** sample.py:67-69 *)
  Definition next_count (pool found count max : nat) : nat :=
    let ratio := (qn found / qn count)%Qc in
    let ratio := if qlt ratio (Q2Qc (1 # 1000)) then Q2Qc (1 # 1000) else ratio in
    let estimated := (qn (pool - found) / ratio)%Qc in
    Nat.min (Z.to_nat (Qfloor (estimated * Q2Qc (11 # 10))%Qc)) (max - count).

  (** sample.py:61-78, the loop.  The fresh samples come from the default generator
      [dg], not from the caller's.  Each round draws, so [max] rounds suffice. *)
  Fixpoint fill (fuel pool max count : nat) (found : list (list Qc)) (dg : rng) :
      Res (list (list Qc) * nat * rng) :=
    if length found <? pool then
      if max <=? count then Err SamplingError
      else match fuel with
           | 0 => Err OutOfFuel
           | S fuel =>
               match count with
               | 0 => Err ZeroDivisionError
               | S _ =>
                   let m := next_count pool (length found) count max in
                   let! ng := accepted m dg in
                   fill fuel pool max (count + m) (found ++ fst ng) (snd ng)
               end
           end
    else Ok (found, count, dg).

  (** sample.py:52-89 positive.  [rg] is the generator passed in, [dg] the default. *)
  Definition positive (required : nat) (weight : option fm)
      (sample_pool_size sample_count max_samples : option nat) (rg dg : rng) :
      Res (list (list Qc) * Qc) :=
    let pool := or_nat sample_pool_size (match weight with None => required | Some _ => required * 10 end) in
    let count := or_nat sample_count (pool * 2) in
    let max := or_nat max_samples (count * 10) in
    let! fg := accepted count rg in
    let! r := fill max pool max count (fst fg) dg in
    let '(found, count, _) := r in
    let! ratio := match count with 0 => Err ZeroDivisionError | S _ => Ok (qn (length found) / qn count)%Qc end in
    let found := if pool <? length found then take pool found else found in
    match weight with
    | None => Ok (found, ratio)
    | Some w =>
        let! vs := evaluate_rows d w found in
        let! ws := numbers vs in
        let! sg := weighted_sample root (zip ws found) required (snd fg) in
        Ok (fst sg, ratio)
    end.
End positive.

(** * RejectionEngine *)

Section rejection.
  Variables (d : domain) (support : fm) (weight : option fm).

  (** rejection.py:47-65, [bound_volume].  An infinite box cannot occur here: [uniform]
      has raised before. *)
  Definition bound_volume (ohe : option (list (list string))) : Res Qc :=
    let fin x := match x with Fin q => Ok q | Inf => Err NotImplemented end in
    let! bs := bool_vars d in
    match ohe with
    | None =>
        let! rs := real_vars d in
        match rs with
        | [] => Ok (qpow (qz 2) (length bs))
        | _ => let! v := get_volume d in fin v
        end
    | Some gs =>
        let ohevars := concat gs in
        let b := qpow (qz 2) (length (filter (fun v => v ∉ ohevars) bs)) in
        let b := fold_left (fun b g => b * qn (length g))%Qc gs b in
        let! v := get_bounding_box_volume d in
        let! r := fin v in
        Ok (if qeq r 0 then b else (b * r)%Qc)
    end.

  (** rejection.py:34-79 RejectionEngine.compute_volume. *)
  Definition compute_volume (n : nat) (ohe : option (list (list string))) (g : rng) : Res (Qc * rng) :=
    let! sg := uniform d n ohe g in
    let samples := fst sg in
    let! vs := evaluate_rows d support samples in
    let! labels := mask vs in
    let! b := bound_volume ohe in
    let! approx := match length labels with
                   | 0 => Err ZeroDivisionError
                   | S k => Ok (b * qn (count_true labels) / qn (S k))%Qc end in
    match weight with
    | None => Ok (approx, snd sg)
    | Some w =>
        let positives := select labels samples in
        let! ws := evaluate_rows d w positives in
        let! ws := numbers ws in
        match length positives with
        | 0 => Ok (0%Qc, snd sg)
        | S k => Ok ((qsum ws / qn (S k) * approx)%Qc, snd sg)
        end
    end.

  (** rejection.py:89-120 RejectionEngine.compute_probabilities. *)
  Definition rej_probabilities (n : nat) (queries : list fm) (g : rng) : Res (list (option Qc) * rng) :=
    let! sg := uniform d n None g in
    let samples := fst sg in
    let! vs := evaluate_rows d support samples in
    let! labels := mask vs in
    let positives := select labels samples in
    let all := select labels labels in
    match weight with
    | Some w =>
        let! ws := evaluate_rows d w positives in
        let! ws := numbers ws in
        let total := qsum ws in
        let! rs := rmapM (fun q =>
          if qlt 0 total then
            let! qs := evaluate_rows d q positives in
            let! qs := mask qs in
            Ok (Some (qsum (select (zip_with andb qs all) ws) / total)%Qc)
          else Ok None) queries in
        Ok (rs, snd sg)
    | None =>
        let total := length positives in
        let! rs := rmapM (fun q =>
          if 0 <? total then
            let! qs := evaluate_rows d q positives in
            let! qs := mask qs in
            Ok (Some (qn (count_true (zip_with andb qs all)) / qn total)%Qc)
          else Ok None) queries in
        Ok (rs, snd sg)
    end.
End rejection.
