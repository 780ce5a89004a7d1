(** Vocabulary for C39, C40 and C41. *)

From Verif Require Import Base Dict Smt Lit_Model Sdd_Model Vtree_Model.

(** * Vtree files *)

(** The tree described by a vtree file: variable numbers at the leaves. *)
Inductive ntree := NLeaf (k : nat) | NNode (l r : ntree).

Fixpoint ntree_leaves (t : ntree) : list nat :=
  match t with NLeaf k => [k] | NNode l r => ntree_leaves l ++ ntree_leaves r end.

(** Reading the lines of a file with [n] nodes: ids are below [n] and used once,
    children come before their parents, the last line is the root. *)
Fixpoint read_lines (n : nat) (known : list (nat * ntree)) (ls : list vline) : option ntree :=
  match ls with
  | [] => match rev known with (_, t) :: _ => Some t | [] => None end
  | LeafLine id k :: ls =>
      match dget known id with
      | None => if (id <? n)%nat then read_lines n (known ++ [(id, NLeaf k)]) ls else None
      | Some _ => None
      end
  | InnerLine id l r :: ls =>
      match dget known id, dget known l, dget known r with
      | None, Some tl, Some tr => if (id <? n)%nat then read_lines n (known ++ [(id, NNode tl tr)]) ls else None
      | _, _, _ => None
      end
  end.
Definition read_file (file : nat * list vline) : option ntree :=
  if (length file.2 =? file.1)%nat then read_lines file.1 [] file.2 else None.

(** The same tree, with literals replaced by their numbers. *)
Inductive same_tree (varnums : list (string * nat)) : vtree -> ntree -> Prop :=
| st_leaf x k : dget varnums x = Some k -> same_tree varnums (VVar x) (NLeaf k)
| st_node p s l r : same_tree varnums p l -> same_tree varnums s r -> same_tree varnums (VSplit p s) (NNode l r).

(** No empty vtree occurs in the tree. *)
Fixpoint proper (t : vtree) : Prop :=
  match t with VEmpty => False | VVar _ => True | VSplit p s => proper p /\ proper s end.

Inductive subtree : vtree -> vtree -> Prop :=
| sub_refl t : subtree t t
| sub_left t p s : subtree t p -> subtree t (VSplit p s)
| sub_right t p s : subtree t s -> subtree t (VSplit p s).

(** * Elimination *)

(** Adjacency in a stored graph. *)
Definition adj (g : list (string * list string)) (x y : string) : Prop :=
  exists c, dget g x = Some c /\ y ∈ c.

(** The interaction relation of a list of groups. *)
Definition together (groups : list (list string)) (x y : string) : Prop :=
  x <> y /\ exists s, s ∈ groups /\ x ∈ s /\ y ∈ s.

(** Eliminating one vertex, then a sequence of vertices, from a relation: the
    neighbours of the vertex become adjacent to each other. *)
Definition eliminate (E : string -> string -> Prop) (a : string) : string -> string -> Prop :=
  fun x y => x <> a /\ y <> a /\ (E x y \/ x <> y /\ E x a /\ E a y).
Fixpoint eliminate_all (E : string -> string -> Prop) (l : list string) : string -> string -> Prop :=
  match l with [] => E | a :: l => eliminate_all (eliminate E a) l end.

(** The number of ordered pairs of distinct neighbours of [v] that are not
    adjacent. *)
Definition missing_pairs (g : list (string * list string)) (v : string) : nat :=
  match dget g v with
  | None => 0
  | Some c => length (filter (fun p : string * string =>
                p.1 <> p.2 /\ p.2 ∉ default [] (dget g p.1)) (list_prod c c))
  end.

Fixpoint remove_all (l : list string) (p : primal) : Res primal :=
  match l with [] => Ok p | a :: l => let! p := remove_and_process_node a p in remove_all l p end.

(** * Integration trees *)

(** [a] and [b] are different branches of a node of [t]. *)
Inductive branches : itree -> itree -> itree -> Prop :=
| br_split x l r : branches (ISplit x l r) l r
| br_split_sym x l r : branches (ISplit x l r) r l
| br_par x ts ws a b rest : ts ≡ₚ a :: b :: rest -> branches (IParallel x ts ws) a b
| br_left x l r a b : branches l a b -> branches (ISplit x l r) a b
| br_right x l r a b : branches r a b -> branches (ISplit x l r) a b
| br_in x ts ws t a b : t ∈ ts -> branches t a b -> branches (IParallel x ts ws) a b
| br_line x t a b : branches t a b -> branches (ILine x t) a b.

(** The variables at the leaves of an integration tree. *)
Fixpoint leaf_vars (t : itree) : list string :=
  match t with
  | IVar x => [x]
  | ISplit _ l r => leaf_vars l ++ leaf_vars r
  | IParallel _ ts _ => concat (map leaf_vars ts)
  | ILine _ t => leaf_vars t
  end.

(** The constructor's requirements; given weights are positive. *)
Fixpoint itree_ok (t : itree) : Prop :=
  match t with
  | IVar _ => True
  | ISplit _ l r => itree_ok l /\ itree_ok r
  | IParallel _ ts ws => ts <> [] /\ fold_right (fun t P => itree_ok t /\ P) True ts /\
      match ws with Some ws => length ws = length ts /\ Forall (fun w => 0 < w) ws | None => True end
  | ILine _ t => itree_ok t
  end.

(** A literal mentions a variable of the tree. *)
Definition touches (conts : string -> list string) (lit : string) (t : itree) : Prop :=
  exists v, v ∈ conts lit /\ v ∈ con_vars t.

(** No literal mentions variables of two different branches. *)
Definition on_paths (conts : string -> list string) (t : itree) (lits : list string) : Prop :=
  forall a b lit, branches t a b -> lit ∈ lits -> touches conts lit a -> touches conts lit b -> False.

(** Every leaf variable is mentioned by a literal. *)
Definition covered (conts : string -> list string) (t : itree) (lits : list string) : Prop :=
  forall v, v ∈ leaf_vars t -> exists lit, lit ∈ lits /\ v ∈ conts lit.

(** A split of the vtree has the literals over [a] on one side and those over [b] on
    the other. *)
Definition separated (conts : string -> list string) (v : vtree) (a b : itree) : Prop :=
  exists l r, (subtree (VSplit l r) v \/ subtree (VSplit r l) v) /\
    (forall lit, lit ∈ all_leaves v -> touches conts lit a -> lit ∈ all_leaves l /\ lit ∉ all_leaves r) /\
    (forall lit, lit ∈ all_leaves v -> touches conts lit b -> lit ∈ all_leaves r /\ lit ∉ all_leaves l).

(** The iteration order of sets. *)
Definition iteration (ord : list string -> list string) : Prop := forall l, ord l ≡ₚ l.

(** A literal table with distinct names whose tests are linear inequalities. *)
Definition table_usable (i : linfo) : Prop :=
  NoDup (dkeys (literals i)) /\
  map snd (abstractions i) ++ map snd (booleans i) ≡ₚ dkeys (literals i) /\
  Forall (fun a : fm * string => is_ok (Math_Model.li_from_smt a.1) = true) (abstractions i).

(** The literal's test, or the weights of its boolean variable, mention the variable. *)
Inductive lit_mentions (i : linfo) (labels : list (string * (fm * fm))) : string -> string -> Prop :=
| lm_test f lit d v : (f, lit) ∈ abstractions i -> Math_Model.li_from_smt f = Ok d ->
    (exists m c, (m, c) ∈ d /\ v ∈ m) -> lit_mentions i labels lit v
| lm_label x lit pos neg v t : (x, lit) ∈ booleans i -> dget labels x = Some (pos, neg) ->
    (v, t) ∈ syms pos ++ syms neg -> lit_mentions i labels lit v.
