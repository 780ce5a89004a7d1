(** Model of pywmi/__main__.py 170-284 and 369-390: the tasks volume, prob and compare of the
    command line.  Printing, the progress messages and the format of the numbers are
    left out; numbers are exact. *)

From Verif Require Import Base Dict Smt Cli_Model Engine_Model.

(** What the tasks use of an engine: [exact], and the results of compute_volume(),
    compute_probabilities(queries) and compute_probability(query), where [None] is
    Python's None. *)
Record runner := Runner {
  r_exact : bool;
  r_volume : Res (option Qc);
  r_probabilities : list fm -> Res (option (list (option Qc)));
  r_probability : fm -> Res (option Qc) }.

(** What a task prints *)
Inductive answer := AVolume (v : Qc) | AProbabilities (ps : list (option Qc)).

(** __main__.py:175-178 *)
Definition ask (queries : option (list fm)) (e : runner) : Res (option answer) :=
  match queries with
  | None => let! v := r_volume e in Ok (AVolume <$> v)
  | Some qs => let! ps := r_probabilities e qs in Ok (AProbabilities <$> ps)
  end.

(** __main__.py:170-186 get_volume: how many engines were asked, and the result.
    get_engine returns None for an unknown name, which has no methods. *)
Fixpoint get_volume (queries : option (list fm)) (engines : list (option runner)) : nat * Res (option answer) :=
  match engines with
  | [] => (0%nat, Ok None)
  | None :: _ => (0%nat, Err AttributeError)
  | Some e :: es =>
      match ask queries e with
      | Err x => (1%nat, Err x)
      | Ok (Some a) => (1%nat, Ok (Some a))
      | Ok None => let '(n, r) := get_volume queries es in (S n, r)
      end
  end.

(** __main__.py:369-384 the tasks volume ([queries] is None) and prob.  All engines are built before
    the first one is asked; [run] is what an engine does on the imported problem. *)
Definition volume_task (py_int : string -> option Z) (run : engine -> runner)
    (queries : option (list fm)) (descriptions : list string) : nat * Res (option answer) :=
  match rmapM (get_engine py_int) descriptions with
  | Err x => (0%nat, Err x)
  | Ok es => get_volume queries (map (fmap run) es)
  end.

(** engine.py:29-37 compute_probabilities and compute_probability of the base class for
    engines whose compute_volume may return None (xadd.py:85-97): [None > 0] and
    [None / volume] are TypeErrors. *)
Section Base.
  Variable vol : fm -> Res (option Qc).
  Definition base_probabilities (support : fm) (queries : list fm) : Res (list (option Qc)) :=
    let! volume := vol support in
    rmapM (fun query =>
      match volume with
      | None => Err TypeError
      | Some volume =>
          if qlt 0 volume then
            let! v := vol (with_constraint support query) in
            match v with None => Err TypeError | Some v => Ok (Some (v / volume)%Qc) end
          else Ok None
      end) queries.
  Definition base_runner (exact : bool) (support : fm) : runner := {|
    r_exact := exact;
    r_volume := vol support;
    r_probabilities qs := let! ps := base_probabilities support qs in Ok (Some ps);
    r_probability q :=
      let! ps := base_probabilities support [q] in
      match ps with p :: _ => Ok p | [] => Err IndexError end |}.
End Base.

(** * compare *)

(** __main__.py:234-256: one engine with its answer and the time it took *)
Record outcome := Outcome { o_exact : bool; o_volume : option Qc; o_duration : Qc }.
(** [clock n]: the time the n-th engine takes *)
Fixpoint outcomes (clock : nat -> Qc) (query : option fm) (n : nat) (engines : list (option runner))
    : Res (list outcome) :=
  match engines with
  | [] => Ok []
  | None :: _ => Err AttributeError                       (* engine.exact *)
  | Some e :: es =>
      let! v := match query with None => r_volume e | Some q => r_probability e q end in
      let! os := outcomes clock query (S n) es in
      Ok (Outcome (r_exact e) v (clock n) :: os)
  end.

(** __main__.py:223 *)
Definition delta : Qc := Q2Qc (1 # 100000).
Definition qmin (a b : Qc) : Qc := if qle a b then a else b.
(** __main__.py:261-263 *)
Definition disagreement (a b : Qc) : bool := qlt (delta * qmin (qabs a) (qabs b)) (qabs (a - b)).
(** __main__.py:252-254: the answers of exact engines *)
Definition exact_volumes (os : list outcome) : list Qc :=
  omap (fun o => if o_exact o then o_volume o else None) os.
Definition exact_durations (os : list outcome) : list Qc :=
  omap (fun o => if o_exact o then (fun _ => o_duration o) <$> o_volume o else None) os.
(** __main__.py:258-269: the warnings.  Each names engines[i] and engines[j], where i
    and j are positions in the list of exact answers. *)
Definition warnings (evs : list Qc) : list (nat * nat) :=
  List.filter (fun ij => match evs !! ij.1, evs !! ij.2 with Some a, Some b => disagreement a b | _, _ => false end)
    (concat (map (fun i => map (pair i) (seq (S i) (length evs - S i))) (seq 0 (length evs - 1)))).

(** __main__.py:199-206 error *)
Definition error (ev v : option Qc) : option Qc :=
  match ev, v with
  | Some ev, Some v => Some (if qeq ev 0 then 0%Qc else (qabs (v - ev) / qabs ev)%Qc)
  | _, _ => None
  end.
(** __main__.py:208-213 r_duration *)
Definition r_duration (fd : option Qc) (d : Qc) : option Qc :=
  match fd with Some fd => Some (if qeq fd 0 then 0%Qc else (d / fd)%Qc) | None => None end.

(** One line of the table; [None] is printed as "-". *)
Record row := Row { w_duration : Qc; w_relative : option Qc; w_volume : option Qc; w_error : option Qc }.

(** __main__.py:188-284 compare: the warnings and the table.  (The standard deviation of
    the single answer is left out.) *)
Definition compare (clock : nat -> Qc) (query : option fm) (engines : list (option runner))
    : Res (list (nat * nat) * list row) :=
  let! os := outcomes clock query 0 engines in
  let evs := exact_volumes os in
  let ws := warnings evs in
  let ev := if bool_decide (ws = []) then head evs else None in
  let fd := match exact_durations os with [] => None | d :: ds => Some (fold_left qmin ds d) end in
  Ok (ws, map (fun o => Row (o_duration o) (r_duration fd (o_duration o)) (o_volume o) (error ev (o_volume o))) os).

(** __main__.py:386-389: the query picked by -q; Python counts negative indices from
    the end *)
Definition pick_query (index : option Z) (queries : list fm) : Res (option fm) :=
  match index with
  | None => Ok None
  | Some i =>
      if (i <? Z.of_nat (length queries))%Z then
        let i := if (i <? 0)%Z then (i + Z.of_nat (length queries))%Z else i in
        if (i <? 0)%Z then Err IndexError
        else match queries !! Z.to_nat i with Some q => Ok (Some q) | None => Err IndexError end
      else Ok None
  end.
(** __main__.py:386-390 the task compare *)
Definition compare_task (py_int : string -> option Z) (run : engine -> runner) (clock : nat -> Qc)
    (index : option Z) (queries : list fm) (descriptions : list string) : Res (list (nat * nat) * list row) :=
  let! query := pick_query index queries in
  let! es := rmapM (get_engine py_int) descriptions in
  compare clock query (map (fmap run) es).
