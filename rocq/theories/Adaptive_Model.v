(** Model of pywmi/engines/adaptive_rejection.py. *)

From Verif Require Import Base Dict Smt Walk_Model Check_Model Domain_Model Sample_Model.

(** An interval with flags for closed ends: ((lb, closed?), (ub, closed?)). *)
Notation abound := ((Qc * bool) * (Qc * bool))%type.

(** Node (60-74).  An inner node also keeps its samples, which no later step reads. *)
Inductive tree :=
| Leaf (samples : list (list Qc)) (labels : list bool) (volume : Qc) (bounds : list abound) (empty : bool)
| Inner (volume : Qc) (bounds : list abound) (split : nat * Qc) (left right : tree).

(** A constraint asserted by [add_split] (49-53): column of the real variable, value,
    and whether it is [<=] (true) or [>]. *)
Notation assertion := (nat * Qc * bool)%type.

(** 235-243 TreeBuilder.get_volume: None without bounds. *)
Definition bounds_volume (bounds : list abound) : option Qc :=
  match bounds with
  | [] => None
  | _ => Some (fold_left (fun v b => v * (fst (snd b) - fst (fst b)))%Qc bounds 1%Qc)
  end.

(** [domain.change_bounds({v: (t[0][0], t[1][0]) ...})] (68-69, 191); domain.py:78-81. *)
Definition with_bounds (d : domain) (bounds : list abound) : Res domain :=
  let! rs := real_vars d in
  Ok (Dom (d_vars d) (d_types d)
        (set_all [] (map (fun p => (fst p, (Some (fst (fst (snd p))), Some (fst (snd (snd p)))))) (zip rs bounds)))).

(** The solver of SmtOracle: its assertion stack is part of the state, together with a
    log of the questions asked (region, asserted constraints). *)
Record astate := AState { stack : list assertion; gen : rng; asked : list (list abound * list assertion) }.

(** [solver.push(); solver.add_assertion(..)] and [solver.pop()] (49-57).  The newest
    assertion is at the head. *)
Definition add_split (a : assertion) (s : astate) : astate := AState (a :: stack s) (gen s) (asked s).
Definition remove_last_split (s : astate) : astate := AState (tail (stack s)) (gen s) (asked s).

Section builder.
  Variables (d : domain) (formula : fm).
  (** The stopping and scoring functions, and the solver's answer to formula and
      asserted splits. *)
  Variable stopping : Qc -> Qc -> nat -> bool.
  Variable scoring : list (list Qc) -> list bool -> nat -> Qc -> Qc.
  Variable sat : list assertion -> bool.
  Variable sample_count : nat.

  (** SmtOracle.check (39-40). *)
  Definition check_rows (rows : list (list Qc)) : Res (list bool) :=
    let! vs := evaluate_rows d formula rows in mask vs.

  (** 209-219: the best split; [None] without bounds. *)
  Definition split_score (rows : list (list Qc)) (labels : list bool) (i : nat) (b : abound) : Qc :=
    let lb := fst (fst b) in let ub := fst (snd b) in
    if count_true labels <? sample_count then scoring rows labels i (lb + (ub - lb) / qz 2)%Qc else (ub - lb)%Qc.
  Fixpoint best_split (rows : list (list Qc)) (labels : list bool) (i : nat) (bounds : list abound)
      (best : option (nat * Qc * Qc)) : option (nat * Qc * Qc) :=
    match bounds with
    | [] => best
    | b :: bounds =>
        let lb := fst (fst b) in let ub := fst (snd b) in
        let sc := split_score rows labels i b in
        best_split rows labels (S i) bounds
          (match best with
           | None => Some (i, lb + (ub - lb) / qz 2, sc)%Qc
           | Some (_, _, s) => if qlt s sc then Some (i, lb + (ub - lb) / qz 2, sc)%Qc else best
           end)
    end.

  (** 222 and 227: the bounds of the children. *)
  Definition left_bounds (split : nat * Qc) (bounds : list abound) : list abound :=
    imap (fun i b => if decide (i = fst split) then (fst b, (snd split, true)) else b) bounds.
  Definition right_bounds (split : nat * Qc) (bounds : list abound) : list abound :=
    imap (fun i b => if decide (i = fst split) then ((snd split, false), snd b) else b) bounds.

  (** 175-233 TreeBuilder.build_tree; [root] is [self.volume].  Fuel bounds the depth. *)
  Fixpoint build (fuel : nat) (root : Qc) (bounds : list abound) (volume : Qc) (depth : nat) (s : astate) :
      Res (tree * astate) :=
    match fuel with
    | 0 => Err OutOfFuel
    | S fuel =>
        let! dom := with_bounds d bounds in
        let! rg := uniform dom sample_count None (gen s) in
        let rows := fst rg in
        let s := AState (stack s) (snd rg) (asked s) in
        let! labels := check_rows rows in
        if sample_count =? 0 then Err ZeroDivisionError
        else if qeq root 0 then Err ZeroDivisionError
        else if stopping (qn (count_true labels) / qn sample_count)%Qc (volume / root)%Qc depth
        then Ok (Leaf rows labels volume bounds false, s)
        else
          let s' := if 0 <? count_true labels then s else AState (stack s) (gen s) ((bounds, stack s) :: asked s) in
          if (0 <? count_true labels) || sat (stack s) then
            match best_split rows labels 0 bounds None with
            | None => Err TypeError
            | Some (i, v, _) =>
                let! r1 := build fuel root (left_bounds (i, v) bounds) (volume / qz 2)%Qc (S depth)
                             (add_split (i, v, true) s') in
                let! r2 := build fuel root (right_bounds (i, v) bounds) (volume / qz 2)%Qc (S depth)
                             (add_split (i, v, false) (remove_last_split (snd r1))) in
                Ok (Inner volume bounds (i, v) (fst r1) (fst r2), snd r2)
            end
          else Ok (Leaf rows labels volume bounds true, s')
    end.

  (** 162-164: the bounds of the root. *)
  Definition root_bounds : Res (list abound) :=
    let! rs := real_vars d in
    rmapM (fun v => let! b := ditem (d_doms d) v in
                    match b with (Some l, Some u) => Ok ((l, true), (u, true)) | _ => Err TypeError end) rs.

  (** 165, 288-292: [TreeBuilder.__init__] and the [tree] property.  Without real
      variables the volume is None and dividing by it raises. *)
  Definition build_root (fuel : nat) (g : rng) : Res (tree * Qc * astate) :=
    let! bs := root_bounds in
    match bounds_volume bs with
    | None => Err TypeError
    | Some v => let! r := build fuel v bs v 0 (AState [] g []) in Ok (fst r, v, snd r)
    end.

  (** * Volumes *)

  (** 94-109: a non-empty leaf draws until it has [desired] samples. *)
  Fixpoint top_up (desired : nat) (t : tree) (g : rng) : Res (tree * rng) :=
    match t with
    | Leaf rows labels volume bounds empty =>
        if empty then Ok (t, g)
        else if length rows <? desired then
          let! dom := with_bounds d bounds in
          let! rg := uniform dom (desired - length rows) None g in
          let! ls := check_rows (fst rg) in
          Ok (Leaf (rows ++ fst rg) (labels ++ ls) volume bounds empty, snd rg)
        else Ok (t, g)
    | Inner volume bounds split t1 t2 =>
        let! r1 := top_up desired t1 g in
        let! r2 := top_up desired t2 (snd r1) in
        Ok (Inner volume bounds split (fst r1) (fst r2), snd r2)
    end.

  (** 86-112 Node.get_volume after topping up; [query] is not used by the code. *)
  Fixpoint raw_volume (root : Qc) (query : option fm) (t : tree) : Res Qc :=
    match t with
    | Leaf rows labels volume _ empty =>
        if empty then Ok 0%Qc
        else match length labels with
             | 0 => Err ZeroDivisionError
             | S k => Ok (qn (count_true labels) / qn (S k) * (volume / root))%Qc
             end
    | Inner _ _ _ t1 t2 =>
        let! v1 := raw_volume root None t1 in let! v2 := raw_volume root None t2 in Ok (v1 + v2)%Qc
    end.

  (** 120-131 Node.get_weighted_volume. *)
  Fixpoint weighted_volume (root : Qc) (weight : fm) (query : option fm) (t : tree) : Res Qc :=
    match t with
    | Leaf rows labels volume _ empty =>
        if empty then Ok 0%Qc
        else
          let! labels := match query with
                         | None => Ok labels
                         | Some q => let! vs := evaluate_rows d q rows in let! qs := mask vs in
                                     Ok (zip_with andb qs labels)
                         end in
          let! ws := evaluate_rows d weight (select labels rows) in
          let! ws := numbers ws in
          match length rows with
          | 0 => Err ZeroDivisionError
          | S k => Ok (qsum ws / qn (S k) * (volume / root))%Qc
          end
    | Inner _ _ _ t1 t2 =>
        let! v1 := weighted_volume root weight query t1 in
        let! v2 := weighted_volume root weight query t2 in Ok (v1 + v2)%Qc
    end.

  (** [self.weight and self.weight != smt.Real(1)] (297, 305) *)
  Definition weighted (weight : option fm) : option fm :=
    match weight with Some (RealC q) => if qeq q 1 then None else weight | w => w end.

  (** 294-300 AdaptiveRejection.compute_volume on a built tree. *)
  Definition adaptive_volume (root : Qc) (weight : option fm) (desired : nat) (t : tree) (g : rng) : Res (Qc * tree * rng) :=
    let! r := top_up desired t g in
    let t := fst r in
    let! v := raw_volume root None t in
    match weighted weight with
    | Some w => let! x := weighted_volume root w None t in Ok ((x * root)%Qc, t, snd r)
    | None => Ok ((v * root)%Qc, t, snd r)
    end.

  (** 302-308 AdaptiveRejection.compute_probability.  A zero denominator that is a numpy
      float gives nan with a warning instead of raising. *)
  Definition adaptive_probability (root : Qc) (weight : option fm) (desired : nat) (query : fm) (t : tree) (g : rng) :
      Res (Qc * tree * rng) :=
    let! r := top_up desired t g in
    let t := fst r in
    let! v := raw_volume root None t in
    let! nd := match weighted weight with
               | Some w => let! a := weighted_volume root w (Some query) t in
                           let! b := weighted_volume root w None t in Ok (a, b)
               | None => let! a := raw_volume root (Some query) t in Ok (a, v)
               end in
    if qeq (snd nd) 0 then Err ZeroDivisionError else Ok ((fst nd / snd nd)%Qc, t, snd r).
End builder.
