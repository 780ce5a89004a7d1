(** Model of pywmi/engines/pyxadd: decisions (decision.py), the node pool
    (core.py), the operations (operation.py), the walkers (walk.py), the leaf
    transformation (leaf_transform.py) and the reduction (reduce.py).

    Node ids are natural numbers (Python ints; the never used ids 1.1 and 1.2 of
    core.py:181-182 equal no int).  A pool is a value and every operation is a
    function from a pool to a pool and a result, so that the effects of an
    operation that raises stay visible. *)

From Verif Require Import Base Dict Smt Math_Model.

(** * Decisions (decision.py) *)

(** decision.py:19-26 Decision.  [_variables] and [_is_bool] only cache values
    derived from the test and are left out; [d_ineq] is the inequality given to the
    constructor. *)
Record decision := Dec { d_test : fm; d_canonical : bool; d_ineq : option pdict }.

(** Decision(test) *)
Definition mkdec (f : fm) : decision := Dec f false None.

(** decision.py:57-62 is_bool *)
Definition is_symbol (f : fm) : bool := match f with Sym _ _ => true | _ => false end.
Definition dec_is_bool (d : decision) : bool :=
  match d_test d with
  | Sym _ t => bool_decide (t = TBool)
  | NotN f => is_symbol f
  | _ => false
  end.

(** decision.py:34-38 inequality *)
Definition dec_inequality (d : decision) : Res pdict :=
  match d_ineq d with Some i => Ok i | None => li_from_smt (d_test d) end.

(** decision.py:28-32 variables: the free variables of the test. *)
Fixpoint free_vars (f : fm) : list (string * ty) :=
  match f with
  | Sym x t => [(x, t)]
  | BoolC _ | RealC _ | IntC _ => []
  | AndN l | OrN l | PlusN l | TimesN l => concat (map free_vars l)
  | NotN a | ExpN a | ToRealN a => free_vars a
  | ImpN a b | IffN a b | MinusN a b | PowN a b | LeN a b | LtN a b | EqN a b =>
      free_vars a ++ free_vars b
  | IteN c a b => free_vars c ++ free_vars a ++ free_vars b
  end.

Section Decision.
  (** pysmt's simplifier *)
  Variable simp : fm -> fm.

  (** decision.py:40-55 get_valid_branches *)
  Definition valid_branches (d : decision) : Res (list bool) :=
    let! s :=
      if bool_decide (d_test d ∈ [BoolC true; BoolC false]) then Ok (d_test d)
      else if dec_is_bool d then Ok (simp (d_test d))
      else let! i := dec_inequality d in let! f := li_to_smt i in Ok (simp f) in
    Ok (if bool_decide (s = BoolC true) then [true]
        else if bool_decide (s = BoolC false) then [false] else [true; false]).

  (** decision.py:64-95 to_canonical.  (The mutation [self.is_canonical = True] of a
      symbol test is invisible: such a test is its own canonical form.) *)
  Definition to_canonical (d : decision) (ct cf : nat) : Res (decision * nat * nat) :=
    if d_canonical d then Ok (d, ct, cf)
    else if dec_is_bool d then
      if is_symbol (d_test d) then Ok (Dec (d_test d) true (d_ineq d), ct, cf)
      else
        let t := simp (mkNot (d_test d)) in
        if is_symbol t then Ok (Dec t true None, cf, ct) else Err AssertionError
    else
      let! i := li_from_smt (d_test d) in
      match psort mono_cmp (dkeys i) with
      | [] => Err IndexError                                   (* keys[0] *)
      | k0 :: _ =>
          let factor := qabs (li_coefficient i k0) in
          let result := dict_scale i factor in
          let '(result, ct, cf) :=
            if qlt (li_coefficient result k0) 0 then (dict_neg result, cf, ct)
            else (result, ct, cf) in
          let c := li_make result in
          let! t := li_to_smt c in
          Ok (Dec t true (Some c), ct, cf)
      end.
End Decision.

(** * The pool (core.py) *)

(** core.py:28-109 TerminalNode, InternalNode *)
Inductive node (E : Type) := TNode (e : E) | INode (d : decision) (ct cf : nat).
Arguments TNode {E}. Arguments INode {E}.

(** operation.py: the four operations *)
Inductive xop := Multiplication | Summation | LogicalOr | LogicalAnd.
Global Instance xop_eq_dec : EqDecision xop.
Proof. solve_decision. Defined.

(** walk.py:181-205 WalkingProfile *)
Record profile := Prof { pf_nodes : list nat; pf_counts : list (nat * (nat * nat)); pf_next : nat }.

Notation rkey := (string * nat * option fm * option fm)%type.

(** core.py:167-187 Pool: counter, nodes, internal_map, expressions, tests,
    apply_cache, whether an ordering was given, zero_id and one_id; the named
    caches "profile" (walk.py), the one of reduce.py and the one of resolve.py.
    The cache "diagram" holds wrappers of node ids and is left out. *)
Record pool (E : Type) := Pool {
  p_counter : nat; p_nodes : list (nat * node E); p_internal : list ((nat * nat * nat) * nat);
  p_exprs : list (E * nat); p_tests : list (fm * nat); p_apply : list ((xop * nat * nat) * nat);
  p_ordering : bool; p_zero : nat; p_one : nat;
  p_profiles : list (nat * profile); p_reduced : list (nat * nat); p_resolved : list (rkey * nat) }.
Arguments Pool {E}. Arguments p_counter {E}. Arguments p_nodes {E}. Arguments p_internal {E}.
Arguments p_exprs {E}. Arguments p_tests {E}. Arguments p_apply {E}. Arguments p_ordering {E}.
Arguments p_zero {E}. Arguments p_one {E}. Arguments p_profiles {E}. Arguments p_reduced {E}.
Arguments p_resolved {E}.

(** An operation: the pool afterwards (also when it raises) and the result. *)
Definition M (E A : Type) : Type := pool E -> pool E * Res A.
Definition mret {E A} (a : A) : M E A := fun p => (p, Ok a).
Definition merr {E A} (x : exn) : M E A := fun p => (p, Err x).
Definition mlift {E A} (r : Res A) : M E A := fun p => (p, r).
Definition mbind {E A B} (m : M E A) (k : A -> M E B) : M E B := fun p =>
  let '(p, r) := m p in match r with Ok a => k a p | Err x => (p, Err x) end.
Definition mget {E} : M E (pool E) := fun p => (p, Ok p).
Notation "'do!' x := r 'in' k" := (mbind r (fun x => k))
  (at level 200, x pattern, r at level 100, k at level 200, right associativity).

Section Pool.
  (** The algebra of the leaf expressions (its equality decides dictionary lookup),
      get_flat_expression, is_one and is_zero; pysmt's simplifier; the SMT solver:
      given the assertions on its stack and an assumption, whether it found a model. *)
  Context {E : Type} `{EqDecision E} (A : alg E) (flat : E -> E) (is_one is_zero : E -> Res bool)
    (simp : fm -> fm) (solve : list fm -> fm -> bool).
  Notation M := (M E).

  Definition set_apply (p : pool E) (k : xop * nat * nat) (r : nat) : pool E :=
    Pool (p_counter p) (p_nodes p) (p_internal p) (p_exprs p) (p_tests p) (dset (p_apply p) k r)
      (p_ordering p) (p_zero p) (p_one p) (p_profiles p) (p_reduced p) (p_resolved p).
  Definition set_profile (p : pool E) (k : nat) (f : profile) : pool E :=
    Pool (p_counter p) (p_nodes p) (p_internal p) (p_exprs p) (p_tests p) (p_apply p)
      (p_ordering p) (p_zero p) (p_one p) (dset (p_profiles p) k f) (p_reduced p) (p_resolved p).
  Definition set_reduced (p : pool E) (k r : nat) : pool E :=
    Pool (p_counter p) (p_nodes p) (p_internal p) (p_exprs p) (p_tests p) (p_apply p)
      (p_ordering p) (p_zero p) (p_one p) (p_profiles p) (dset (p_reduced p) k r) (p_resolved p).
  Definition set_resolved (p : pool E) (k : rkey) (r : nat) : pool E :=
    Pool (p_counter p) (p_nodes p) (p_internal p) (p_exprs p) (p_tests p) (p_apply p)
      (p_ordering p) (p_zero p) (p_one p) (p_profiles p) (p_reduced p) (dset (p_resolved p) k r).

  (** core.py:217-227 get_node *)
  Definition get_node (id : nat) : M (node E) := fun p =>
    match dget (p_nodes p) id with Some n => (p, Ok n) | None => (p, Err RuntimeErr) end.

  (** core.py:266-270 _register *)
  Definition register (n : node E) : M nat := fun p =>
    (Pool (S (p_counter p)) (dset (p_nodes p) (p_counter p) n) (p_internal p) (p_exprs p) (p_tests p)
       (p_apply p) (p_ordering p) (p_zero p) (p_one p) (p_profiles p) (p_reduced p) (p_resolved p),
     Ok (p_counter p)).

  (** core.py:229-235 terminal *)
  Definition terminal (e : E) : M nat := fun p =>
    match dget (p_exprs p) e with
    | Some id => (p, Ok id)
    | None =>
        (do! id := register (TNode e) in fun p =>
          (Pool (p_counter p) (p_nodes p) (p_internal p) (dset (p_exprs p) e id) (p_tests p)
             (p_apply p) (p_ordering p) (p_zero p) (p_one p) (p_profiles p) (p_reduced p) (p_resolved p),
           Ok id)) p
    end.

  (** core.py:212-215 _add_test *)
  Definition add_test (t : fm) : M nat := fun p =>
    match dget (p_tests p) t with
    | Some i => (p, Ok i)
    | None =>
        (Pool (p_counter p) (p_nodes p) (p_internal p) (p_exprs p)
           (dset (p_tests p) t (length (p_tests p)))
           (p_apply p) (p_ordering p) (p_zero p) (p_one p) (p_profiles p) (p_reduced p) (p_resolved p),
         Ok (length (p_tests p)))
    end.

  (** core.py:250-261: the second half of internal *)
  Definition cons_node (d : decision) (ct cf : nat) : M nat :=
    do! (d, ct, cf) := mlift (to_canonical simp d ct cf) in
    do! i := add_test (d_test d) in
    fun p =>
    match dget (p_internal p) (i, ct, cf) with
    | Some id => (p, Ok id)
    | None =>
        (do! id := register (INode d ct cf) in fun p =>
          (Pool (p_counter p) (p_nodes p) (dset (p_internal p) (i, ct, cf) id) (p_exprs p) (p_tests p)
             (p_apply p) (p_ordering p) (p_zero p) (p_one p) (p_profiles p) (p_reduced p) (p_resolved p),
           Ok id)) p
    end.

  (** core.py:237-261 internal *)
  Definition internal (d : decision) (ct cf : nat) : M nat :=
    if bool_decide (ct = cf) then mret ct
    else
      do! bs := mlift (valid_branches simp d) in
      match bs with
      | [b] => mret (if b : bool then ct else cf)
      | _ => cons_node d ct cf
      end.

  (** core.py:263-264 bool_test *)
  Definition bool_test (d : decision) : M nat :=
    do! p := mget in internal d (p_one p) (p_zero p).

  (** core.py:168-187 Pool(algebra=A), Pool(ordering=..., algebra=A) *)
  Definition new_pool (ordering : bool) : pool E :=
    let p0 := Pool 1 [] [] [] [] [] ordering 0 0 [] [] [] in
    let '(p1, z) := terminal (alg_zero A) p0 in
    let '(p2, o) := terminal (alg_one A) p1 in
    match z, o with
    | Ok z, Ok o => Pool (p_counter p2) (p_nodes p2) (p_internal p2) (p_exprs p2) (p_tests p2)
                      (p_apply p2) (p_ordering p2) z o (p_profiles p2) (p_reduced p2) (p_resolved p2)
    | _, _ => p2
    end.

  Definition is_tnode (n : node E) : bool := match n with TNode _ => true | _ => false end.

  (** operation.py: compute_terminal of the four operations; [None]: not terminal *)
  Definition compute_terminal (op : xop) (r1 : nat) (n1 : node E) (r2 : nat) (n2 : node E) : M (option nat) :=
    do! p := mget in
    let z := p_zero p in let o := p_one p in
    let leaves (k : E -> E -> E) : M (option nat) :=
      match n1, n2 with
      | TNode e1, TNode e2 => do! id := terminal (flat (k e1 e2)) in mret (Some id)
      | _, _ => mret None
      end in
    let is r id : bool := bool_decide (r = id) in
    let bool_leaf r : bool := is r z || is r o in
    match op with
    | Multiplication =>                                        (* operation.py:25-36 *)
        if is r1 z || is r2 z then mret (Some z)
        else if is r1 o then mret (Some r2)
        else if is r2 o then mret (Some r1)
        else leaves (alg_times A)
    | Summation =>                                             (* operation.py:44-57 *)
        if is r1 z then mret (Some r2)
        else if is r2 z then mret (Some r1)
        else leaves (alg_plus A)
    | LogicalOr =>                                             (* operation.py:66-83 *)
        if is_tnode n1 && is_tnode n2 && (negb (bool_leaf r1) || negb (bool_leaf r2)) then merr RuntimeErr
        else if is r1 z then mret (Some r2)
        else if is r1 o then mret (Some o)
        else if is r2 z then mret (Some r1)
        else if is r2 o then mret (Some o)
        else if is_tnode n1 && is_tnode n2 then merr RuntimeErr
        else mret None
    | LogicalAnd =>                                            (* operation.py:91-108 *)
        if is_tnode n1 && is_tnode n2 && (negb (bool_leaf r1) || negb (bool_leaf r2)) then merr RuntimeErr
        else if is r1 o then mret (Some r2)
        else if is r1 z then mret (Some z)
        else if is r2 o then mret (Some r1)
        else if is r2 z then mret (Some z)
        else if is_tnode n1 && is_tnode n2 then merr RuntimeErr
        else mret None
    end.

  (** core.py:313-327 test_smaller_eq.  A pool with an ordering calls the
      misspelled method test_smaller_eg of it. *)
  Definition test_smaller_eq (t1 t2 : fm) : M bool := fun p =>
    if p_ordering p then (p, Err AttributeError)
    else match dget (p_tests p) t1, dget (p_tests p) t2 with
         | Some i1, Some i2 => (p, Ok (i1 <=? i2)%nat)
         | _, _ => (p, Err TypeError)
         end.

  (** core.py:295-303: the children of a node for the selected test *)
  Definition children (id : nat) (n : node E) (t : fm) : nat * nat :=
    match n with
    | INode d ct cf => if bool_decide (d_test d = t) then (ct, cf) else (id, id)
    | TNode _ => (id, id)
    end.

  (** core.py:272-311 apply *)
  Fixpoint apply_fuel (n : nat) (op : xop) (r1 r2 : nat) : M nat :=
    match n with
    | 0 => merr OutOfFuel
    | S n => fun p =>
        match dget (p_apply p) (op, r1, r2) with
        | Some r => (p, Ok r)
        | None =>
            (do! n1 := get_node r1 in
             do! n2 := get_node r2 in
             do! res := compute_terminal op r1 n1 r2 n2 in
             do! r :=
               match res with
               | Some r => mret r
               | None =>
                   do! d :=
                     match n1, n2 with
                     | INode d1 _ _, INode d2 _ _ =>
                         do! le := test_smaller_eq (d_test d1) (d_test d2) in
                         mret (if le then d1 else d2)
                     | INode d1 _ _, TNode _ => mret d1
                     | TNode _, INode d2 _ _ => mret d2
                     | TNode _, TNode _ => merr AttributeError      (* node2.decision *)
                     end in
                   let '(t1, f1) := children r1 n1 (d_test d) in
                   let '(t2, f2) := children r2 n2 (d_test d) in
                   do! ct := apply_fuel n op t1 t2 in
                   do! cf := apply_fuel n op f1 f2 in
                   internal d ct cf
               end in
             fun p => (set_apply p (op, r1, r2) r, Ok r)) p
        end
    end.
  Definition apply (op : xop) (r1 r2 : nat) : M nat := apply_fuel (S (r1 + r2)) op r1 r2.

  (** * Walkers (walk.py) *)

  (** walk.py:153-178 ParentsWalker (a DepthFirstUniqueWalker, 59-88): the state is
      the set of seen nodes and the parents found so far. *)
  Definition add_parent (ps : list (nat * list nat)) (id : nat) (parent : option nat) :=
    match parent with
    | None => ps
    | Some q =>
        let s := default [] (dget ps id) in
        dset ps id (if bool_decide (q ∈ s) then s else s ++ [q])
    end.
  Fixpoint parents_visit (n : nat) (nodes : list (nat * node E)) (id : nat) (parent : option nat)
      (st : list nat * list (nat * list nat)) : Res (list nat * list (nat * list nat)) :=
    match n with
    | 0 => Err OutOfFuel
    | S n =>
        let '(seen, ps) := st in
        match dget nodes id with
        | None => Err RuntimeErr
        | Some (TNode _) => Ok (seen, add_parent ps id parent)
        | Some (INode _ ct cf) =>
            let ps := add_parent ps id parent in
            if bool_decide (id ∈ seen) then Ok (seen, ps)
            else
              let! st := parents_visit n nodes ct (Some id) (id :: seen, ps) in
              parents_visit n nodes cf (Some id) st
        end
    end.
  Definition parents (nodes : list (nat * node E)) (root : nat) : Res (list (nat * list nat)) :=
    let! (_, ps) := parents_visit (S root) nodes root None ([], [(root, [])]) in Ok ps.

  (** walk.py:252-258: one child of the current node *)
  Definition layer_child (cur : nat) (st : list (nat * nat) * list (nat * list nat) * list nat) (c : nat)
      : Res (list (nat * nat) * list (nat * list nat) * list nat) :=
    let '(pos, ps, watch) := st in
    let pos := match dget pos c with Some _ => pos | None => dset pos c 0 end in
    match dget ps c with
    | None => Err KeyError
    | Some s =>
        if bool_decide (cur ∈ s) then
          let s := filter (fun q => q <> cur) s in
          let pos := dset pos c (Nat.max (default 0 (dget pos c)) (default 0 (dget pos cur) + 1)) in
          Ok (pos, dset ps c s, match s with [] => watch ++ [c] | _ => watch end)
        else Err KeyError
    end.
  (** walk.py:241-258: the loop ([watch.pop()] takes the last element) *)
  Fixpoint layers_loop (n : nat) (nodes : list (nat * node E))
      (st : list (nat * nat) * list (nat * list nat) * list nat) : Res (list (nat * nat)) :=
    match n with
    | 0 => Err OutOfFuel
    | S n =>
        let '(pos, ps, watch) := st in
        match rev watch with
        | [] => Ok pos
        | cur :: rest =>
            let watch := rev rest in
            match dget ps cur with
            | None => Err KeyError
            | Some (_ :: _) => Err RuntimeErr
            | Some [] =>
                match dget nodes cur with
                | None => Err RuntimeErr
                | Some (TNode _) => layers_loop n nodes (pos, ps, watch)
                | Some (INode _ ct cf) =>
                    let! st := layer_child cur (pos, ps, watch) ct in
                    let! st := layer_child cur st cf in
                    layers_loop n nodes st
                end
            end
        end
    end.
  (** walk.py:231-238, 259-265 extract_cache, extract_layers: the nodes layer by
      layer, reversed. *)
  Definition layers (pos : list (nat * nat)) : list (nat * list nat) :=
    fold_left (fun r kv => dset r kv.2 (default [] (dget r kv.2) ++ [kv.1])) pos [].
  Definition extract_cache (nodes : list (nat * node E)) (ps : list (nat * list nat)) (root : nat)
      : Res (list nat) :=
    let! pos := layers_loop (S (length ps)) nodes ([(root, 0)], ps, [root]) in
    let ls := layers pos in
    let! chunks := rmapM (fun i => match dget ls i with Some l => Ok l | None => Err KeyError end)
                     (seq 0 (length ls)) in
    Ok (rev (concat chunks)).
  (** walk.py:181-188 WalkingProfile.__init__ *)
  Definition make_profile (nodes : list (nat * node E)) (root : nat) : Res profile :=
    let! ps := parents nodes root in
    let! ns := extract_cache nodes ps root in
    let! cs := rmapM (fun id => match dget ps id with
                                | Some s => Ok (id, (length s, 0)) | None => Err KeyError end) ns in
    Ok (Prof ns cs 0).

  (** walk.py:387-393 get_profile: cached in the pool by the root *)
  Definition get_profile (root : nat) : M profile := fun p =>
    match dget (p_profiles p) root with
    | Some f => (p, Ok f)
    | None =>
        match make_profile (p_nodes p) root with
        | Ok f => (set_profile p root f, Ok f)
        | Err x => (p, Err x)
        end
    end.

  (** walk.py:200-215 count *)
  Definition count (root id : nat) : M bool := fun p =>
    match dget (p_profiles p) root with
    | None => (p, Err KeyError)
    | Some f =>
        match dget (pf_counts f) id with
        | None => (p, Err KeyError)
        | Some (c, i) =>
            let i := S i in
            let p := set_profile p root (Prof (pf_nodes f) (dset (pf_counts f) id (c, i)) (pf_next f)) in
            if (i =? c)%nat then (p, Ok true)
            else if (i <? c)%nat then (p, Ok false) else (p, Err RuntimeErr)
        end
    end.

  Section Walk.
    (** visit_terminal and visit_internal of the walker; messages may be missing
        ([messages.pop(id, None)]). *)
    Context {B : Type} (vt : nat -> E -> M B)
      (vi : nat -> decision -> nat -> nat -> option B -> option B -> M B).

    (** walk.py:315-319 _retrieve_message *)
    Definition retrieve (root id : nat) (ms : list (nat * B)) : M (list (nat * B) * option B) :=
      do! done := count root id in
      if done then mret (ddel ms id, dget ms id)
      else match dget ms id with Some m => mret (ms, Some m) | None => merr KeyError end.

    (** walk.py:294-304: the loop of walk *)
    Fixpoint walk_loop (n : nat) (root : nat) (ms : list (nat * B)) : M (list (nat * B)) :=
      match n with
      | 0 => merr OutOfFuel
      | S n => fun p =>
          match dget (p_profiles p) root with
          | None => (p, Err KeyError)
          | Some f =>
              match nth_error (pf_nodes f) (pf_next f) with
              | None => (p, Ok ms)
              | Some id =>
                  (do! nd := get_node id in
                   do! ms :=
                     match nd with
                     | TNode e => do! m := vt id e in mret (dset ms id m)
                     | INode d ct cf =>
                         do! (ms, tm) := retrieve root ct ms in
                         do! (ms, fm) := retrieve root cf ms in
                         do! m := vi id d ct cf tm fm in
                         mret (dset ms id m)
                     end in
                   walk_loop n root ms)
                    (set_profile p root (Prof (pf_nodes f) (pf_counts f) (S (pf_next f))))
              end
          end
      end.

    (** walk.py:268-313 BottomUpWalker(diagram).walk() *)
    Definition bottom_up (root : nat) : M B :=
      do! _ := get_node root in
      do! f := get_profile root in
      do! ms := walk_loop (S (length (pf_nodes f))) root [] in
      match ms with
      | [(r, m)] =>
          if bool_decide (r = root) then
            fun p =>
            match dget (p_profiles p) root with
            | Some f =>                                          (* reset *)
                (set_profile p root
                   (Prof (pf_nodes f) (map (fun kv => (kv.1, (kv.2.1, 0))) (pf_counts f)) 0), Ok m)
            | None => (p, Err KeyError)
            end
          else merr RuntimeErr
      | _ => merr RuntimeErr
      end.
  End Walk.

  (** * Inversion (core.py:329-367, leaf_transform.py) *)

  (** core.py:329-337 _transform_invert *)
  Definition transform_invert (e : E) : M nat :=
    do! p := mget in
    do! b := mlift (is_one e) in
    if b then mret (p_zero p)
    else do! b := mlift (is_zero e) in
         if b then mret (p_one p) else merr RuntimeErr.

  (** core.py:345-359: the cases of invert that need no walk; [None]:
      none of them *)
  Definition invert_simple (id : nat) : M (option nat) :=
    do! n := get_node id in
    do! p := mget in
    match n with
    | INode d ct cf =>
        if bool_decide (ct = p_one p) && bool_decide (cf = p_zero p) then
          do! r := internal d (p_zero p) (p_one p) in mret (Some r)
        else if bool_decide (ct = p_zero p) && bool_decide (cf = p_one p) then
          do! r := internal d (p_one p) (p_zero p) in mret (Some r)
        else mret None
    | TNode _ =>
        if bool_decide (id = p_one p) then mret (Some (p_zero p))
        else if bool_decide (id = p_zero p) then mret (Some (p_one p))
        else merr RuntimeErr
    end.

  (** leaf_transform.py:15-20 LeafWalker.visit_internal.  [inv] is pool.invert;
      a missing message is no node id (get_node raises RuntimeError). *)
  Definition leaf_internal (inv : nat -> M nat) (d : decision) (tm fm : option nat) : M nat :=
    do! t := bool_test d in
    do! l := match tm with Some m => apply Multiplication t m | None => merr RuntimeErr end in
    do! nt := inv t in
    do! r := match fm with Some m => apply Multiplication nt m | None => merr RuntimeErr end in
    apply Summation l r.

  (** leaf_transform.py:23-25 transform_leaves *)
  Definition transform_leaves (inv : nat -> M nat) (f : nat -> E -> M nat) (root : nat) : M nat :=
    bottom_up f (fun _ d _ _ tm fm => leaf_internal inv d tm fm) root.

  (** core.py:339-367 invert.  The calls of invert on the test nodes made by the walk
      are given fuel as well (one level is enough: a test node has the children one
      and zero). *)
  Fixpoint invert_fuel (n : nat) (id : nat) : M nat :=
    match n with
    | 0 => merr OutOfFuel
    | S n =>
        do! r := invert_simple id in
        match r with
        | Some r => mret r
        | None => transform_leaves (invert_fuel n) (fun _ e => transform_invert e) id
        end
    end.
  Definition invert (id : nat) : M nat := invert_fuel 2 id.

  (** leaf_transform.py:28-33 to_binary; [eq0] is Python's [expression == 0] *)
  Definition to_binary (eq0 : E -> bool) (id : nat) : M nat :=
    transform_leaves invert (fun _ e => do! p := mget in
      mret (if eq0 e then p_zero p else p_one p)) id.

  (** * Reduction (reduce.py) *)

  (** reduce.py:303-359 _reduce: [asserted] is the solver's stack, [cs] the set
      [self.consistent] (used in fast mode only). *)
  Fixpoint reduce_fuel (n : nat) (fast : bool) (asserted : list fm) (cs : list nat) (id : nat)
      : M (list nat * nat) :=
    match n with
    | 0 => merr OutOfFuel
    | S n =>
        do! nd := get_node id in
        match nd with
        | TNode _ => mret (cs, id)
        | INode d ct cf =>
            if fast && bool_decide (id ∈ cs) then mret (cs, id)
            else
              let t := d_test d in
              do! (cs, r) :=
                if negb (dec_is_bool d) then
                  if negb (solve asserted t) then reduce_fuel n fast (mkNot t :: asserted) cs cf
                  else if negb (solve asserted (mkNot t)) then reduce_fuel n fast (t :: asserted) cs ct
                  else
                    do! (cs, rt) := reduce_fuel n fast (t :: asserted) cs ct in
                    do! (cs, rf) := reduce_fuel n fast (mkNot t :: asserted) cs cf in
                    do! r := internal d rt rf in mret (cs, r)
                else
                  do! (cs, rt) := reduce_fuel n fast asserted cs ct in
                  do! (cs, rf) := reduce_fuel n fast asserted cs cf in
                  do! r := internal d rt rf in mret (cs, r) in
              mret (if fast then r :: cs else cs, r)
        end
    end.

  (** reduce.py:285-301 SmtReduce.reduce; core.py Diagram.reduce with the methods
      "smt" and "fast_smt" *)
  Definition reduce (fast : bool) (id : nat) : M nat := fun p =>
    match dget (p_reduced p) id with
    | Some r => (p, Ok r)
    | None =>
        (do! (_, r) := reduce_fuel (S id) fast [] [] id in
         fun p => (set_reduced p id r, Ok r)) p
    end.
End Pool.
