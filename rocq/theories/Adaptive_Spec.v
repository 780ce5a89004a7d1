(** Vocabulary for C25-C27 and C61. *)

From Verif Require Import Base Dict Smt Domain_Model Domain_Spec Sample_Model Sample_Spec Adaptive_Model.

(** [x] lies between the ends of an interval, ends included where the flag says so. *)
Definition between (x : Qc) (b : abound) : Prop :=
  (if snd (fst b) then (fst (fst b) <= x)%Qc else (fst (fst b) < x)%Qc) /\
  (if snd (snd b) then (x <= fst (snd b))%Qc else (x < fst (snd b))%Qc).

(** A point (the values of the real variables) lies in a box. *)
Definition in_box (p : list Qc) (bounds : list abound) : Prop := Forall2 between p bounds.

(** The leaves from left to right: box, volume, declared empty, samples with labels. *)
Record leaf := LeafData { l_box : list abound; l_vol : Qc; l_empty : bool; l_rows : list (list Qc); l_labels : list bool }.
Fixpoint leaves (t : tree) : list leaf :=
  match t with
  | Leaf rows labels v b e => [LeafData b v e rows labels]
  | Inner _ _ _ t1 t2 => leaves t1 ++ leaves t2
  end.

(** Product of the side lengths of a box. *)
Definition size (bounds : list abound) : Qc := qprod (map (fun b => fst (snd b) - fst (fst b))%Qc bounds).

(** Closed, finite and not reversed, as the builder starts out. *)
Definition closed_box (bounds : list abound) : Prop :=
  Forall (fun b => fst (fst b) <= fst (snd b))%Qc bounds /\ Forall (fun b => snd (snd b) = true) bounds.

(** A point satisfies an asserted split. *)
Definition asserts (p : list Qc) (a : assertion) : Prop :=
  exists x, p !! fst (fst a) = Some x /\ if snd a then (x <= snd (fst a))%Qc else (snd (fst a) < x)%Qc.

(** No left child is split again. *)
Fixpoint left_leaves (t : tree) : Prop :=
  match t with
  | Leaf _ _ _ _ _ => True
  | Inner _ _ _ (Leaf _ _ _ _ _) t2 => left_leaves t2
  | Inner _ _ _ (Inner _ _ _ _ _) _ => False
  end.

(** The labels of a leaf are the truth values of the support on its samples. *)
Definition labelled (d : domain) (formula : fm) (t : tree) : Prop :=
  Forall (fun l => l_labels l = map (holds (d_vars d) formula) (l_rows l) /\
                   Forall (fun r => length r = length (d_vars d)) (l_rows l)) (leaves t).

(** Leaf-wise estimate: volume of each leaf times the average of weight times test over
    its samples; leaves declared empty count nothing. *)
Definition estimate (d : domain) (w : option fm) (t : list Qc -> bool) (ls : list leaf) : Qc :=
  qsum (map (fun l => if l_empty l then 0 else
    l_vol l * (weight_where (d_vars d) w t (l_rows l) / qn (length (l_rows l))))%Qc ls).

(** The values of the real variables of a row, in the order of the domain. *)
Definition reals (d : domain) (row : list Qc) : list Qc := map (value (d_vars d) row) (names d TReal).

(** A point lies in a box, ends included. *)
Definition in_closure (p : list Qc) (bounds : list abound) : Prop :=
  Forall2 (fun x b => fst (fst b) <= x /\ x <= fst (snd b))%Qc p bounds.

(** A solver that never misses a solution of the support and the asserted splits. *)
Definition complete (d : domain) (formula : fm) (sat : list assertion -> bool) : Prop :=
  forall st, sat st = false -> forall row, length row = length (d_vars d) ->
    holds (d_vars d) formula row = true -> ~ Forall (asserts (reals d row)) st.
