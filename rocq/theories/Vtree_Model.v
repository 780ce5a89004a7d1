(** Model of pywmi/engines/xsdd/vtrees: vtree.py, primal.py and int_tree.py.

    A Python set is a duplicate-free list; the order in which Python iterates over a
    set is the parameter [ord], an arbitrary permutation of the list. *)

From Verif Require Import Base Dict Smt Math_Model Lit_Model Sdd_Model.

(** * Vtrees *)

(** vtree.py:142-219 VtreeEmpty, VtreeSplit and VtreeVar. *)
Inductive vtree :=
| VEmpty
| VVar (x : string)
| VSplit (primes subs : vtree).

(** [depth], [count_leaves], [count] and [all_leaves] of the three classes.
    vtree.py:142-172, 206-211 *)
Fixpoint depth (t : vtree) : nat :=
  match t with VEmpty | VVar _ => 0 | VSplit p s => Nat.max (depth p) (depth s) + 1 end.
Fixpoint count (t : vtree) : nat :=
  match t with VEmpty => 0 | VVar _ => 1 | VSplit p s => count p + count s + 1 end.
Fixpoint count_leaves (t : vtree) : nat :=
  match t with VEmpty => 0 | VVar _ => 1 | VSplit p s => count_leaves p + count_leaves s end.
Fixpoint all_leaves (t : vtree) : list string :=
  match t with VEmpty => [] | VVar x => [x] | VSplit p s => all_leaves p ++ all_leaves s end.

(** balanced_add.  vtree.py:149, 177-183, 213-217 *)
Fixpoint balanced_add (t v : vtree) (prefer_left : bool) : vtree :=
  match t with
  | VEmpty => VEmpty
  | VVar _ => if prefer_left then VSplit v t else VSplit t v
  | VSplit p s =>
      let lc := count p in let rc := count s in
      if (lc <? rc)%nat || ((lc =? rc)%nat && prefer_left) then VSplit (balanced_add p v prefer_left) s
      else VSplit p (balanced_add s v prefer_left)
  end.

(** The loop [for leaf, var in zip(root.all_leaves(), varlist): leaf.var = var];
    the second component is what is left of the list.  vtree.py:81-82 *)
Fixpoint relabel (t : vtree) (l : list string) : vtree * list string :=
  match t with
  | VEmpty => (VEmpty, l)
  | VVar x => match l with [] => (VVar x, []) | y :: l => (VVar y, l) end
  | VSplit p s =>
      let '(p', l1) := relabel p l in let '(s', l2) := relabel s l1 in (VSplit p' s', l2)
  end.

(** Vtree.create_balanced.  vtree.py:71-83 *)
Definition create_balanced (varlist : list string) (prefer_left : bool) : vtree :=
  match varlist with
  | [] => VEmpty
  | x :: rest =>
      (relabel (fold_left (fun root v => balanced_add root (VVar v) prefer_left) rest (VVar x)) varlist).1
  end.

(** Vtree.create_rightlinear.  vtree.py:85-92 *)
Definition create_rightlinear (varlist : list string) : vtree :=
  match varlist with
  | [] => VEmpty
  | x :: rest => fold_left (fun t v => VSplit (VVar v) t) rest (VVar x)
  end.

(** Vtree.create_leftlinear.  vtree.py:94-101 *)
Definition create_leftlinear (varlist : list string) : vtree :=
  match varlist with
  | [] => VEmpty
  | x :: rest => fold_left (fun t v => VSplit t (VVar v)) rest (VVar x)
  end.

(** ** The file handed to PySDD *)

(** A line [L id var] or [I id left right] of the file.  vtree.py:125-128 *)
Inductive vline := LeafLine (id var : nat) | InnerLine (id left right : nat).

(** The loop that assigns the ids (the position in [all_nodes], children first), and
    [_to_pysdd].  [n] is the first free id; the result is the id of the node (VEmpty
    has none), the next free id and the lines.  vtree.py:130-131, 195-200, 226-227;
    the ids are computed here while writing, since [all_nodes] and [_to_pysdd]
    traverse the tree in the same order. *)
Fixpoint to_lines (varnums : list (string * nat)) (t : vtree) (n : nat) : Res (option nat * nat * list vline) :=
  match t with
  | VEmpty => Ok (None, n, [])
  | VVar x =>
      match dget varnums x with
      | Some k => Ok (Some n, S n, [LeafLine n k])
      | None => Err KeyError
      end
  | VSplit p s =>
      let! (ip, n1, lp) := to_lines varnums p n in
      let! (is, n2, ls) := to_lines varnums s n1 in
      match ip, is with
      | Some ip, Some is => Ok (Some n2, S n2, lp ++ ls ++ [InnerLine n2 ip is])
      | _, _ => Err AttributeError
      end
  end.

(** Vtree.to_pysdd: the number of nodes in the header and the lines.  Without
    variables PySDD makes a vtree with the single variable 1.  vtree.py:107-139 *)
Definition to_pysdd (varnums : list (string * nat)) (t : vtree) : Res (nat * list vline) :=
  match varnums with
  | [] => Ok (1, [LeafLine 0 1])
  | _ => let! (_, _, ls) := to_lines varnums t 0 in Ok (count t, ls)
  end.

(** * The interaction graph *)

(** PrimalGraph's attributes.  primal.py:13-24.  A fill is the number of missing
    (ordered) pairs and the pairs themselves, grouped. *)
Notation fill := (nat * list (string * list string))%type.
Record primal := Primal {
  connected_to : list (string * list string);
  fills : option (list (string * fill));
  degrees : option (list (string * nat)) }.

(** PrimalGraph.__init__.  primal.py:13-24 *)
Definition primal_init (vertices : list string) (f d : bool) : primal :=
  Primal (fold_left (fun g v => dset g v []) vertices [])
    (if f then Some [] else None) (if d then Some [] else None).

(** PrimalGraph.add_edges.  primal.py:40-44 *)
Definition add_edges (node_set : list string) (p : primal) : Res primal :=
  let! g := fold_left (fun r node =>
    let! g := r in
    match dget g node with
    | Some c => Ok (dset g node (diff (uni c node_set) [node]))
    | None => Err KeyError
    end) node_set (Ok (connected_to p)) in
  Ok (Primal g (fills p) (degrees p)).

(** The body of the loop of compute_fills.  primal.py:53-63 *)
Definition compute_fill (g : list (string * list string)) (vertex : string) : Res fill :=
  match dget g vertex with
  | None => Err TypeError
  | Some connections =>
      let! edges := rmapM (fun c =>
        match dget g c with
        | Some cc => Ok (c, diff (diff connections cc) [c])
        | None => Err KeyError
        end) connections in
      let edges := filter (fun e => e.2 <> []) edges in
      Ok (fold_left (fun n (e : string * list string) => n + length e.2) edges 0, edges)
  end.

(** PrimalGraph.compute_fills.  primal.py:46-64 *)
Definition compute_fills (of_nodes : list string) (p : primal) : Res primal :=
  match fills p with
  | None => Err AssertionError
  | Some f =>
      let! f := fold_left (fun r v =>
        let! f := r in let! x := compute_fill (connected_to p) v in Ok (dset f v x)) of_nodes (Ok f) in
      Ok (Primal (connected_to p) (Some f) (degrees p))
  end.

(** PrimalGraph.compute_degrees.  primal.py:66-73 *)
Definition compute_degrees (of_nodes : list string) (p : primal) : Res primal :=
  match degrees p with
  | None => Err AssertionError
  | Some d =>
      let! d := fold_left (fun r v =>
        let! d := r in
        match dget (connected_to p) v with
        | Some c => Ok (dset d v (length c)) | None => Err KeyError end) of_nodes (Ok d) in
      Ok (Primal (connected_to p) (fills p) (Some d))
  end.

(** Updating the entry of every node of a list. *)
Definition update_all (l : list (string * list string)) (f : string -> list string -> list string -> list string)
    (g : list (string * list string)) : Res (list (string * list string)) :=
  fold_left (fun r (e : string * list string) =>
    let! g := r in
    match dget g e.1 with Some c => Ok (dset g e.1 (f e.1 e.2 c)) | None => Err KeyError end) l (Ok g).

(** PrimalGraph.remove_and_process_node.  primal.py:75-96 *)
Definition remove_and_process_node (a : string) (p : primal) : Res primal :=
  match dget (connected_to p) a with
  | None => Err KeyError
  | Some neighbors =>
      let g := ddel (connected_to p) a in
      let! p := match fills p with
        | Some f =>
            match dget f a with
            | None => Err KeyError
            | Some (_, edges) =>
                let! g := update_all (map (fun x => (x, [])) neighbors) (fun _ _ c => diff c [a]) g in
                let! g := update_all edges (fun _ new c => uni c new) g in
                compute_fills neighbors (Primal g (Some (ddel f a)) (degrees p))
            end
        | None =>
            let! g := update_all (map (fun x => (x, [])) neighbors) (fun _ _ c => diff (uni c neighbors) [a]) g in
            Ok (Primal g None (degrees p))
        end in
      match degrees p with Some _ => compute_degrees neighbors p | None => Ok p end
  end.

(** [self._fills.peekitem(0)]: the smallest stored number of fills; IndexError for an
    empty dictionary. *)
Definition min_fill (f : list (string * fill)) : Res nat :=
  match map (fun e => fst (snd e)) f with
  | [] => Err IndexError
  | n :: ns => Ok (fold_left Nat.min ns n)
  end.

(** create_interaction_graph_from_literals.  primal.py:166-183 *)
Definition create_interaction_graph (vertices : list string) (co : list (list string)) (f d : bool) : Res primal :=
  fold_left (fun r s => let! p := r in add_edges s p) co (Ok (primal_init vertices f d)).

(** [d.update(b)]. *)
Definition dupdate {V} (d b : list (string * V)) : list (string * V) :=
  fold_left (fun d (kv : string * V) => dset d kv.1 kv.2) b d.

(** [d[k]] for all the keys of a list. *)
Definition getall {V} (d : list (string * V)) (ks : list string) : Res (list (string * V)) :=
  rmapM (fun k => match dget d k with Some v => Ok (k, v) | None => Err KeyError end) ks.

Section selection.
  Variable ord : list string -> list string.

  (** PrimalGraph.get_minfills.  primal.py:112-121.  The vertices with the smallest
      fill; their order in the sorted dictionary is [ord]. *)
  Definition get_minfills (p : primal) : Res (list string) :=
    match fills p with
    | None => Err AssertionError
    | Some [] => Err AssertionError
    | Some f =>
        let! m := min_fill f in
        Ok (ord (map fst (filter (fun e : string * fill => e.2.1 = m) f)))
    end.

  (** The loop of get_lowest_future_minfill; [best] is [lowest_minfill] (None is
      infinity) with [lowest_minfill_vertices].  primal.py:140-161 *)
  Fixpoint future_loop (vertices : list string) (best : option (nat * list string)) (p : primal) :
      Res (option (nat * list string) * primal) :=
    match vertices with
    | [] => Ok (best, p)
    | v :: vertices =>
        match dget (connected_to p) v, fills p with
        | Some neighbors, Some f =>
            let! cb := getall (connected_to p) neighbors in
            let! fb := getall f neighbors in
            match dget f v with
            | None => Err KeyError
            | Some fv =>
                let! p' := remove_and_process_node v p in
                match fills p' with
                | None => Err TypeError
                | Some f' =>
                    let! new := min_fill f' in
                    let best := match best with
                      | None => Some (new, [v])
                      | Some (b, vs) => if (new <? b)%nat then Some (new, [v])
                                        else if (new =? b)%nat then Some (b, vs ++ [v]) else best
                      end in
                    let p'' := Primal (dupdate (connected_to p') (dset cb v neighbors))
                                 (Some (dupdate f' (dset fb v fv))) (degrees p') in
                    future_loop vertices best p''
                end
            end
        | None, _ => Err KeyError
        | _, None => Err TypeError
        end
    end.

  (** PrimalGraph.get_lowest_future_minfill.  primal.py:134-163 *)
  Definition get_lowest_future_minfill (vertices : list string) (p : primal) : Res (list string * primal) :=
    match vertices with
    | [x] => Ok ([x], p)
    | _ => let! (b, p) := future_loop vertices None p in
           Ok (match b with None => [] | Some (_, vs) => vs end, p)
    end.
End selection.

(** * Integration trees *)

(** int_tree.py:45-326 IntTreeVar, IntTreeSplit, IntTreeParallel and IntTreeLine. *)
Inductive itree :=
| IVar (x : string)
| ISplit (x : option string) (left right : itree)
| IParallel (x : option string) (trees : list itree) (weights : option (list nat))
| ILine (x : string) (line : itree).

Definition opt_var (x : option string) : list string := match x with Some x => [x] | None => [] end.

(** get_con_vars.  int_tree.py:61-62, 112-116, 206-210, 298-299 *)
Fixpoint con_vars (t : itree) : list string :=
  match t with
  | IVar x => [x]
  | ISplit x l r => uni (opt_var x) (uni (con_vars l) (con_vars r))
  | IParallel x ts _ => fold_left uni (map con_vars ts) (opt_var x)
  | ILine x t => uni [x] (con_vars t)
  end.

(** depth.  int_tree.py:64, 118, 212, 301 *)
Fixpoint idepth (t : itree) : nat :=
  match t with
  | IVar _ => 1
  | ISplit _ l r => 1 + Nat.max (idepth l) (idepth r)
  | IParallel _ ts _ => 1 + fold_right (fun t n => Nat.max (idepth t) n) 0 ts
  | ILine _ t => 1 + idepth t
  end.

(** [sorted(values, reverse=True, key=lambda x: x[0])]: stable, largest first. *)
Fixpoint insert_desc (x : nat * itree) (l : list (nat * itree)) : list (nat * itree) :=
  match l with
  | [] => [x]
  | y :: l => if (y.1 <=? x.1)%nat then x :: y :: l else y :: insert_desc x l
  end.
Definition sort_desc (l : list (nat * itree)) : list (nat * itree) := fold_right insert_desc [] l.

(** The loop of _partition_trees.  int_tree.py:266-277 *)
Fixpoint partition_loop (l left right : list (nat * itree)) (lw rw : nat) : list (nat * itree) * list (nat * itree) :=
  match l with
  | [] => (left, right)
  | x :: l => if (lw <? rw)%nat then partition_loop l (left ++ [x]) right (lw + x.1) rw
              else partition_loop l left (right ++ [x]) lw (rw + x.1)
  end.
Definition partition_trees (values : list (nat * itree)) : list (nat * itree) * list (nat * itree) :=
  partition_loop (sort_desc values) [] [] 0 0.

(** [len(a & b) > 0]. *)
Definition meets (a b : list string) : bool := existsb (fun x => bool_decide (x ∈ b)) a.

Section create.
  Variable ord : list string -> list string.
  (** [logic2cont] is a defaultdict: a missing literal has the empty set (and None
      with [get], line 223; both then fail or count nothing, see below). *)
  Variable logic2cont : list (string * list string).
  Definition conts (lit : string) : list string := default [] (dget logic2cont lit).

  (** The loop of IntTreeSplit.create_vtree.  int_tree.py:135-153 *)
  Fixpoint divide (lits : list string) (lc rc : list string) (lefts rights rest : list string) :
      Res (list string * list string * list string) :=
    match lits with
    | [] => Ok (lefts, rights, rest)
    | lit :: lits =>
        let in_left := meets (conts lit) lc in
        let in_right := meets (conts lit) rc in
        if in_left && in_right then Err AssertionError
        else if in_left then divide lits lc rc (lefts ++ [lit]) rights rest
        else if in_right then divide lits lc rc lefts (rights ++ [lit]) rest
        else divide lits lc rc lefts rights (rest ++ [lit])
    end.

  (** Distributing the remaining literals.  int_tree.py:156-172 *)
  Definition balance (lefts rights rest : list string) : list string * list string :=
    let need := Nat.min ((length lefts - length rights) + (length rights - length lefts)) (length rest) in
    let '(lefts, rights) := if (length lefts <? length rights)%nat then (lefts ++ take need rest, rights)
                          else (lefts, rights ++ take need rest) in
    let rest := drop need rest in
    let half := Nat.div2 (length rest) in
    (lefts ++ take half rest, rights ++ drop half rest).

  (** get_lit_count.  int_tree.py:229-233 *)
  Definition lit_count (lits tree_vars : list string) : nat :=
    length (filter (fun lit => meets (conts lit) tree_vars = true) lits).

  (** create_vtree of the four classes.  int_tree.py:67-86, 121-174, 215-251, 304-326.
      The recursion of IntTreeParallel goes through newly made trees; [fuel] bounds
      its depth. *)
  Fixpoint create_vtree (fuel : nat) (t : itree) (literals : list string) : Res vtree :=
    match fuel with
    | 0 => Err OutOfFuel
    | S fuel =>
        let lits := ord literals in
        let split l r :=
          let! (lefts, rights, rest) := divide lits (con_vars l) (con_vars r) [] [] [] in
          let '(lefts, rights) := balance lefts rights rest in
          let! vl := create_vtree fuel l lefts in
          let! vr := create_vtree fuel r rights in
          Ok (VSplit vl vr) in
        match t with
        | IVar x =>
            if existsb (fun lit => bool_decide (x ∉ conts lit)) lits then
              Ok (VSplit (create_balanced (filter (fun lit => x ∉ conts lit) lits) true)
                         (create_balanced (filter (fun lit => x ∈ conts lit) lits) true))
            else Ok (create_balanced lits true)
        | ISplit _ l r => split l r
        | IParallel x [] _ => Err AssertionError
        | IParallel x [t] _ => create_vtree fuel t literals
        | IParallel x [t1; t2] _ => split t1 t2
        | IParallel x ts ws =>
            let weights := match ws with Some ws => ws | None => map (fun t => lit_count lits (con_vars t)) ts end in
            let '(lp, rp) := partition_trees (zip weights ts) in
            match lp, rp with
            | [], _ | _, [] => Err AssertionError
            | _, _ => split (IParallel None (map snd lp) (Some (map fst lp)))
                            (IParallel None (map snd rp) (Some (map fst rp)))
            end
        | ILine x t =>
            let lefts := filter (fun lit => meets (con_vars t) (conts lit) = false) lits in
            let rights := filter (fun lit => meets (con_vars t) (conts lit) = true) lits in
            match lefts, rights with
            | [], _ | _, [] => create_vtree fuel t literals
            | _, _ =>
                let! vr := create_vtree fuel t rights in
                Ok (VSplit (create_balanced lefts true) vr)
            end
        end
    end.
End create.

(** * IntTreeFactory *)

(** A root: the tree, its variables and its height.  int_tree.py:340 *)
Notation iroot := (itree * list string * nat)%type.

Section factory.
  (** The copy of the graph made at the start.  int_tree.py:335-337 *)
  Variable graph : list (string * list string).

  (** Whether a root contains a neighbour of the node.  int_tree.py:347-351 *)
  Definition connected (neighbors : list string) (r : iroot) : bool := meets neighbors r.1.2.

  (** Putting the new root in place of the first connected root and removing the
      other connected roots.  int_tree.py:362, 372-373, 387-390 *)
  Fixpoint place (neighbors : list string) (new : option iroot) (roots : list iroot) : list iroot :=
    match roots with
    | [] => []
    | r :: roots =>
        if connected neighbors r then
          match new with
          | Some n => n :: place neighbors None roots
          | None => place neighbors None roots
          end
        else r :: place neighbors new roots
    end.

  Definition max_height (rs : list iroot) : nat := fold_right (fun r n => Nat.max (snd r) n) 0 rs.

  (** IntTreeFactory.add_node.  int_tree.py:342-390 *)
  Definition add_node (node : string) (roots : list iroot) : Res (list iroot) :=
    match dget graph node with
    | None => Err KeyError
    | Some neighbors =>
        match List.filter (connected neighbors) roots with
        | [] => Ok (roots ++ [(IVar node, [node], 1)])
        | [(t, c, h)] => Ok (place neighbors (Some (ILine node t, uni c [node], h + 1)) roots)
        | [(t1, c1, h1); (t2, c2, h2)] =>
            Ok (place neighbors (Some (ISplit (Some node) t1 t2, uni (uni c1 c2) [node], Nat.max h1 h2 + 1)) roots)
        | rs =>
            Ok (place neighbors (Some (IParallel (Some node) (map (fun r => r.1.1) rs) None,
                                       uni (fold_left uni (map (fun r => r.1.2) rs) []) [node],
                                       max_height rs + 1)) roots)
        end
    end.

  (** IntTreeFactory.get_int_tree.  int_tree.py:392-402 *)
  Definition get_int_tree (roots : list iroot) : option itree :=
    match roots with
    | [] => None
    | [(t, _, _)] => Some t
    | [(t1, _, _); (t2, _, _)] => Some (ISplit None t1 t2)
    | _ => Some (IParallel None (map (fun r => r.1.1) roots) None)
    end.

  (** IntTreeFactory.get_new_height.  int_tree.py:428-458 *)
  Definition get_new_height (node : string) (roots : list iroot) : Res nat :=
    match dget graph node with
    | None => Err KeyError
    | Some neighbors =>
        match List.filter (connected neighbors) roots with
        | [] => Ok 1
        | [r] => Ok (r.2 + 1)
        | [r1; r2] => Ok (Nat.max r1.2 r2.2 + 1)
        | rs => Ok (max_height rs + 1)
        end
    end.

  (** The loop of get_least_depth_increase (None is infinity).  int_tree.py:409-419 *)
  Fixpoint least_loop (nodes : list string) (roots : list iroot) (best : option nat) (acc : list string) :
      Res (list string) :=
    match nodes with
    | [] => Ok acc
    | x :: nodes =>
        let! h := get_new_height x roots in
        match best with
        | None => least_loop nodes roots (Some h) [x]
        | Some b => if (b =? h)%nat then least_loop nodes roots best (acc ++ [x])
                    else if (h <? b)%nat then least_loop nodes roots (Some h) [x]
                    else least_loop nodes roots best acc
        end
    end.

  (** IntTreeFactory.get_least_depth_increase.  int_tree.py:404-419 *)
  Definition get_least_depth_increase (nodes : list string) (roots : list iroot) : Res (list string) :=
    match nodes with [x] => Ok [x] | _ => least_loop nodes roots None [] end.
End factory.

(** * Choosing a vtree for a literal table *)

(** LinearInequality.variables.  smt_math.py:151-152 *)
Definition li_variables (d : pdict) : list string := fold_left uni (map (fun v => [v]) (concat (map fst d))) [].

(** get_free_variables of pysmt, as names. *)
Definition free_names (f : fm) : list string := fold_left uni (map (fun s => [fst s]) (syms f)) [].

(** [for cvar in cvars: cont2logic[cvar].add(lit)]: only the keys matter here. *)
Notation tables := (list (string * list string) * list string)%type.

(** _conversion_tables: [logic2cont] and the keys of [cont2logic] in order of
    insertion.  vtree.py:230-247 *)
Definition conversion_tables (ord : list string -> list string) (i : linfo) (labels : list (string * (fm * fm))) :
    Res tables :=
  let! t := fold_left (fun r (a : fm * string) =>
    let! (l2c, keys) := r in
    let! d := li_from_smt a.1 in
    let cvars := li_variables d in
    Ok (dset l2c a.2 cvars, uni keys (ord cvars))) (abstractions i) (Ok ([], [])) in
  fold_left (fun r (b : string * string) =>
    let! (l2c, keys) := r in
    match dget labels b.1 with
    | Some (pos, neg) =>
        let cvars := uni (free_names pos) (free_names neg) in
        Ok (dset l2c b.2 cvars, uni keys (ord cvars))
    | None => Ok (dset l2c b.2 [], keys)
    end) (booleans i) (Ok t).

(** balanced, rightlinear, leftlinear.  vtree.py:250-259 *)
Definition balanced (i : linfo) : vtree := create_balanced (dkeys (literals i)) true.
Definition rightlinear (i : linfo) : vtree := create_rightlinear (dkeys (literals i)).
Definition leftlinear (i : linfo) : vtree := create_leftlinear (dkeys (literals i)).

(** The loop of bami; [graph] is the factory's copy.  vtree.py:281-288.  Every round
    removes a vertex, so [fuel] need not exceed their number. *)
Fixpoint bami_loop (ord : list string -> list string) (graph : list (string * list string)) (fuel : nat)
    (p : primal) (roots : list iroot) : Res (list iroot) :=
  match fills p with
  | None => Err AssertionError
  | Some [] => Ok roots
  | Some _ =>
      match fuel with
      | 0 => Err OutOfFuel
      | S fuel =>
          let! m := get_minfills ord p in
          let! m := get_least_depth_increase graph m roots in
          let! (m, p) := get_lowest_future_minfill m p in
          match m with
          | [] => Err IndexError
          | x :: _ =>
              let! roots := add_node graph x roots in
              let! p := remove_and_process_node x p in
              bami_loop ord graph fuel p roots
          end
      end
  end.

(** The sizes that bound the recursion of create_vtree. *)
Fixpoint isize (t : itree) : nat :=
  match t with
  | IVar _ => 1
  | ISplit _ l r => 1 + isize l + isize r
  | IParallel _ ts _ => 1 + fold_right (fun t n => 2 + isize t + n) 0 ts
  | ILine _ t => 1 + isize t
  end.

(** bami.  vtree.py:262-289 *)
Definition bami (ord : list string -> list string) (i : linfo) (labels : list (string * (fm * fm))) : Res vtree :=
  match abstractions i with
  | [] => Ok (balanced i)
  | _ =>
      let! (l2c, vertices) := conversion_tables ord i labels in
      let! g := create_interaction_graph vertices (map snd l2c) true false in
      let! p := compute_fills (dkeys (connected_to g)) g in
      let! roots := bami_loop ord (connected_to g) (length vertices) p [] in
      match get_int_tree roots with
      | None => Err AttributeError
      | Some t => create_vtree ord l2c (isize t) t (dkeys l2c)
      end
  end.

(** PrimalGraph.get_mindegrees.  primal.py:123-132 *)
Definition get_mindegrees (ord : list string -> list string) (p : primal) : Res (list string) :=
  match degrees p with
  | None => Err AssertionError
  | Some [] => Err AssertionError
  | Some ((x, n) :: d) =>
      let m := fold_left Nat.min (map snd d) n in
      Ok (ord (map fst (filter (fun e : string * nat => e.2 = m) ((x, n) :: d))))
  end.
