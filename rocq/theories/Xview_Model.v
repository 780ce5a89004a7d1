(** Model of the remaining walkers of pywmi/engines/pyxadd/walk.py (DownUpWalker,
    TopDownWalker, walk_leaves and map_leaves) and of pywmi/engines/pyxadd/view.py
    (to_dot).  The parents and the layers of a diagram are those of Xadd_Model. *)

From Verif Require Import Base Dict Smt Xadd_Model.

Section DownUp.
  (** The visitors of a subclass: visit_terminal, visit_internal_down and
      visit_internal_aggregate, assumed to be functions of their arguments.  Messages are
      compared as dictionary keys. *)
  Context {E Msg B : Type} `{EqDecision Msg} (vt : nat -> E -> Msg -> Res B)
    (vd : nat -> decision -> nat -> nat -> Msg -> Res (Msg * Msg)) (va : nat -> decision -> nat -> nat -> B -> B -> Res B).
  Notation cache := (list ((nat * Msg) * B)).

  (** walk.py:132-150 DownUpWalker._visit; [caching] is cache_messages.  A node is
      identified with its id. *)
  Fixpoint du_visit (caching : bool) (n : nat) (nodes : list (nat * node E)) (id : nat) (m : Msg) (c : cache)
      : Res (cache * B) :=
    match n with
    | 0 => Err OutOfFuel
    | S n =>
        let remember '(c, r) := Ok (if caching then dset c (id, m) r else c, r) in
        match (if caching then dget c (id, m) else None) with
        | Some r => Ok (c, r)
        | None =>
            match dget nodes id with
            | None => Err RuntimeErr
            | Some (TNode x) => let! r := vt id x m in remember (c, r)
            | Some (INode d ct cf) =>
                let! (mt, mf) := vd id d ct cf m in
                let! (c, rt) := du_visit caching n nodes ct mt c in
                let! (c, rf) := du_visit caching n nodes cf mf c in
                let! r := va id d ct cf rt rf in
                remember (c, r)
            end
        end
    end.
  (** walk.py:125-130 DownUpWalker.walk; [m] stands for the message None of the root *)
  Definition du_walk (caching : bool) (nodes : list (nat * node E)) (root : nat) (m : Msg) : Res B :=
    let! (_, r) := du_visit caching (S root) nodes root m [] in Ok r.
End DownUp.

Section TopDown.
  (** The visitors of a subclass, given the messages of the parents; [choose n] tells which
      element the n-th [enabled.pop()] takes out of the set. *)
  Context {E B : Type} (vt : nat -> E -> list B -> Res unit)
    (vi : nat -> decision -> nat -> nat -> list B -> Res (B * B)) (choose : nat -> nat).

  (** walk.py:351-356 count *)
  Definition td_count (ps : list (nat * list nat)) (st : list nat * list (nat * nat)) (id : nat)
      : Res (list nat * list (nat * nat)) :=
    let '(enabled, counts) := st in
    let c := S (default 0 (dget counts id)) in
    match dget ps id with
    | None => Err KeyError
    | Some s => Ok (if (c =? length s)%nat && negb (bool_decide (id ∈ enabled)) then enabled ++ [id] else enabled,
                    dset counts id c)
    end.
  (** walk.py:358-361 message *)
  Definition td_message (mc : list (nat * list B)) (id : nat) (m : B) : list (nat * list B) :=
    dset mc id (default [] (dget mc id) ++ [m]).
  (** walk.py:363-374: the loop; the result lists the visits with their messages *)
  Fixpoint td_loop (n step : nat) (nodes : list (nat * node E)) (ps : list (nat * list nat))
      (enabled : list nat) (counts : list (nat * nat)) (mc : list (nat * list B)) : Res (list (nat * list B)) :=
    match n with
    | 0 => Err OutOfFuel
    | S n =>
        match enabled with
        | [] => Ok []
        | first :: _ =>
            let i := choose step mod length enabled in
            let cur := nth i enabled first in
            let enabled := take i enabled ++ drop (S i) enabled in
            match dget mc cur, dget nodes cur with
            | None, _ => Err KeyError
            | _, None => Err RuntimeErr
            | Some ms, Some (TNode x) =>
                let! _ := vt cur x ms in
                let! vs := td_loop n (S step) nodes ps enabled counts mc in
                Ok ((cur, ms) :: vs)
            | Some ms, Some (INode d ct cf) =>
                let! (mt, mf) := vi cur d ct cf ms in
                let! (enabled, counts) := td_count ps (enabled, counts) ct in
                let! (enabled, counts) := td_count ps (enabled, counts) cf in
                let! vs := td_loop n (S step) nodes ps enabled counts (td_message (td_message mc ct mt) cf mf) in
                Ok ((cur, ms) :: vs)
            end
        end
    end.
  (** walk.py:322-325, 345-374 TopDownWalker(diagram).walk() *)
  Definition td_walk (nodes : list (nat * node E)) (root : nat) : Res (list (nat * list B)) :=
    let! ps := parents nodes root in
    td_loop (S (length ps)) 0 nodes ps [root] [] [(root, [])].
End TopDown.

Section Leaves.
  Context {E B : Type} `{EqDecision E}.
  (** walk.py:415-426 walk_leaves and 429-436 map_leaves: the loop.  The position is part of
      the profile, which is cached in the pool. *)
  Fixpoint leaves_loop (f : nat -> E -> Res B) (n : nat) (root : nat) : M E (list B) :=
    match n with
    | 0 => merr OutOfFuel
    | S n => fun p =>
        match dget (p_profiles p) root with
        | None => (p, Err KeyError)
        | Some pf =>
            match pf_nodes pf !! pf_next pf with
            | None => (p, Ok [])                                     (* has_next() is false *)
            | Some id =>
                let p := set_profile p root (Prof (pf_nodes pf) (pf_counts pf) (S (pf_next pf))) in
                match dget (p_nodes p) id with
                | None => (p, Err RuntimeErr)
                | Some (INode _ _ _) => leaves_loop f n root p
                | Some (TNode x) =>
                    match f id x with
                    | Err e => (p, Err e)
                    | Ok y => match leaves_loop f n root p with
                              | (p, Ok ys) => (p, Ok (y :: ys)) | (p, Err e) => (p, Err e) end
                    end
                end
            end
        end
    end.
  Definition map_leaves (f : nat -> E -> Res B) (root : nat) : M E (list B) :=
    do! pf := get_profile root in
    do! ys := leaves_loop f (S (length (pf_nodes pf))) root in
    fun p => match dget (p_profiles p) root with
             | None => (p, Err KeyError)
             | Some pf =>                                              (* walk.py:193-198 reset *)
                 (set_profile p root (Prof (pf_nodes pf) (map (fun kv => (kv.1, (kv.2.1, 0))) (pf_counts pf)) 0), Ok ys)
             end.
End Leaves.

(** * view.py *)

(** What float(text) gives, as far as to_dot looks at it *)
Inductive pyfloat := FInt (z : Z) | FFraction | FInfinite | FNan.
(** The statements of the dot file: a node with its label (a box for a leaf), an edge (dashed
    for the false child), and the nodes of one rank. *)
Inductive dot := DNode (id : nat) (label : string) (box : bool) | DEdge (id c : nat) (dashed : bool) | DRank (ids : list nat).

Section Dot.
  (** str(expression); str or repr of a decision, as [pretty] says; float(text), [None] for a
      ValueError; str of an int; and whether node ids are printed *)
  Context {E : Type} (expr_str : E -> string) (test_str : decision -> string) (py_float : string -> option pyfloat)
    (int_str : Z -> string) (print_ids : bool).

  (** view.py:22-28: int(inf) is an OverflowError, int(nan) a ValueError *)
  Definition leaf_label (x : E) : Res string :=
    let s := expr_str x in
    match py_float s with
    | Some (FInt z) => Ok (int_str z)
    | Some FInfinite => Err GenericException                              (* OverflowError *)
    | _ => Ok s
    end.
  (** view.py:18-19, 29: the node id before the label *)
  Definition with_id (id : nat) (label : string) : string :=
    if print_ids then (int_str (Z.of_nat id) ++ ": " ++ label)%string else label.
  (** view.py:14-36: the statements for one node *)
  Definition dot_node (nodes : list (nat * node E)) (id : nat) : Res (list dot) :=
    match dget nodes id with
    | None => Err RuntimeErr
    | Some (TNode x) => let! l := leaf_label x in Ok [DNode id (with_id id l) true]
    | Some (INode d ct cf) => Ok [DNode id (with_id id (test_str d)) false; DEdge id ct false; DEdge id cf true]
    end.
  (** view.py:5-39 to_dot: the statements of the file *)
  Definition to_dot (nodes : list (nat * node E)) (root : nat) : Res (list dot) :=
    let! ps := parents nodes root in
    let! pos := layers_loop (S (length ps)) nodes ([(root, 0)], ps, [root]) in
    let! parts := rmapM (fun l => let! parts := rmapM (dot_node nodes) l.2 in Ok (concat parts ++ [DRank l.2])) (layers pos) in
    Ok (concat parts).
End Dot.
