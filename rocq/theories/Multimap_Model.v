(** Model of pywmi/multimap.py.  A multimap is a [defaultdict(set)]: an association
    list in insertion order from keys to duplicate-free lists. *)

From Verif Require Import Base Dict.

Section Multimap.
  Context {K V : Type} `{EqDecision K} `{EqDecision V}.

  Definition multimap := list (K * list V).

  (** [self[k]]: a missing key is inserted with an empty set.
      multimap.py:9-11 (defaultdict(set)) *)
  Definition mm_get (m : multimap) (k : K) : multimap * list V :=
    match dget m k with Some vs => (m, vs) | None => (dset m k [], []) end.

  (** [self[k].add(v)], the way engine_factorized.py:239-240 fills it. *)
  Definition mm_add (m : multimap) (k : K) (v : V) : multimap :=
    let '(m, vs) := mm_get m k in
    dset m k (if bool_decide (v ∈ vs) then vs else vs ++ [v]).

  (** flat_items.  multimap.py:13-16 *)
  Definition flat_items (m : multimap) : list (K * V) :=
    flat_map (fun kv => map (fun v => (kv.1, v)) kv.2) m.

  (** flat_values.  multimap.py:18-21 *)
  Definition flat_values (m : multimap) : list V := flat_map (fun kv => kv.2) m.

  (** flat_len.  multimap.py:23-27 *)
  Definition flat_len (m : multimap) : nat := fold_left (fun s kv => s + length kv.2)%nat m 0%nat.

  (** The loop of flatten.  [v.pop()] empties the set stored in the multimap, so the
      loop also returns the multimap it leaves behind.  multimap.py:31-34 *)
  Fixpoint flatten_loop (m : multimap) (d : list (K * V)) : multimap * Res (list (K * V)) :=
    match m with
    | [] => ([], Ok d)
    | (k, vs) :: m =>
        match vs with
        | [v] => let '(m', r) := flatten_loop m (dset d k v) in ((k, []) :: m', r)
        | _ => ((k, vs) :: m, Err ValueError)     (* NotFlat, a ValueError *)
        end
    end.

  (** flatten.  multimap.py:29-35 *)
  Definition flatten (m : multimap) : multimap * Res (list (K * V)) := flatten_loop m [].

  (** The operations a client performs. *)
  Inductive mm_op := MGet (k : K) | MAdd (k : K) (v : V) | MFlatten.

  Definition mm_step (m : multimap) (o : mm_op) : multimap :=
    match o with
    | MGet k => (mm_get m k).1
    | MAdd k v => mm_add m k v
    | MFlatten => (flatten m).1
    end.
End Multimap.
Arguments multimap : clear implicits.
Arguments mm_op : clear implicits.
