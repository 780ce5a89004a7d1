(** What is asked of the remaining walkers and of the dot file. *)

From Verif Require Import Base Dict Smt Xadd_Model Xadd_Spec Xview_Model.

(** The recursion of a down-up walk: messages go down, results come up. *)
Inductive recurses {E Msg B : Type} (vt : nat -> E -> Msg -> Res B)
    (vd : nat -> decision -> nat -> nat -> Msg -> Res (Msg * Msg)) (va : nat -> decision -> nat -> nat -> B -> B -> Res B)
    (nodes : list (nat * node E)) : nat -> Msg -> B -> Prop :=
| re_leaf id x m r : dget nodes id = Some (TNode x) -> vt id x m = Ok r -> recurses vt vd va nodes id m r
| re_node id d ct cf m mt mf rt rf r : dget nodes id = Some (INode d ct cf) -> vd id d ct cf m = Ok (mt, mf) ->
    recurses vt vd va nodes ct mt rt -> recurses vt vd va nodes cf mf rf -> va id d ct cf rt rf = Ok r ->
    recurses vt vd va nodes id m r.

(** Every node below [root] once, each after its parents. *)
Definition top_down_order {E : Type} (nodes : list (nat * node E)) (root : nat) (order : list nat) : Prop :=
  NoDup order /\ (forall id, id ∈ order <-> below nodes root id) /\
  forall before id after a, order = before ++ id :: after -> below nodes root a -> is_child nodes id a -> a ∈ before.

(** The visits of the nodes of [order], one after the other; [sent] lists the messages so
    far with their addressees, and each node is given the messages for it, in that order. *)
Fixpoint top_down_visits {E B : Type} (vt : nat -> E -> list B -> Res unit)
    (vi : nat -> decision -> nat -> nat -> list B -> Res (B * B))
    (nodes : list (nat * node E)) (order : list nat) (sent : list (nat * B)) : Res (list (nat * list B)) :=
  match order with
  | [] => Ok []
  | id :: order =>
      let ms := map snd (List.filter (fun im => (im.1 =? id)%nat) sent) in
      let! more := match dget nodes id with
                   | Some (TNode x) => let! _ := vt id x ms in Ok []
                   | Some (INode d ct cf) => let! (mt, mf) := vi id d ct cf ms in Ok [(ct, mt); (cf, mf)]
                   | None => Err RuntimeErr
                   end in
      let! vs := top_down_visits vt vi nodes order (sent ++ more) in
      Ok ((id, ms) :: vs)
  end.

(** The leaves among [order], in that order *)
Definition leaves_of {E : Type} (nodes : list (nat * node E)) (order : list nat) : list (nat * E) :=
  omap (fun id => match dget nodes id with Some (TNode x) => Some (id, x) | _ => None end) order.

(** The ids and the edges that a dot file shows, in the order of the file *)
Definition shown_nodes (ds : list dot) : list nat := omap (fun s => match s with DNode id _ _ => Some id | _ => None end) ds.
Definition shown_edges (ds : list dot) : list (nat * nat * bool) :=
  omap (fun s => match s with DEdge a c dashed => Some (a, c, dashed) | _ => None end) ds.
Definition ranks (ds : list dot) : list (list nat) := omap (fun s => match s with DRank l => Some l | _ => None end) ds.
