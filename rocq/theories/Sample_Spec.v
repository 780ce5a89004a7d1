(** Vocabulary for C20-C24 and C60. *)

From Verif Require Import Base Dict Smt Domain_Model Domain_Spec Engine_Spec Sample_Model.

(** The numbers of the source lie in [0, 1). *)
Definition fair (g : rng) : Prop := forall k, (0 <= draws g k)%Qc /\ (draws g k < 1)%Qc.

(** All intervals are finite and not reversed. *)
Definition finite_box (d : domain) (lens : list (string * Qc * Qc)) : Prop :=
  box d lens /\ Forall (fun '(_, l, u) => l <= u)%Qc lens.

(** One number per variable: 0 or 1 for a boolean, inside the interval for a real. *)
Definition in_domain (d : domain) (row : list Qc) : Prop :=
  length row = length (d_vars d) /\
  forall k v x, d_vars d !! k = Some v -> row !! k = Some x ->
    ((v, TBool) ∈ d_types d -> x = 0%Qc \/ x = 1%Qc) /\
    (forall b, (v, b) ∈ d_doms d -> inside x b).

(** The same with real values strictly below the upper end (unless the interval is a
    point). *)
Definition in_half_open (d : domain) (row : list Qc) : Prop :=
  in_domain d row /\
  forall k v x l u, d_vars d !! k = Some v -> row !! k = Some x -> (v, (Some l, Some u)) ∈ d_doms d ->
    l <> u -> (x < u)%Qc.

(** The value of a variable in a row, and the assignment a row stands for. *)
Definition value (vars : list string) (row : list Qc) (x : string) : Qc := default 0%Qc (dget (zip vars row) x).
Definition row_env (vars : list string) (row : list Qc) : env :=
  Env (fun x => negb (qeq (value vars row x) 0)) (value vars row).

(** Exactly one variable of the group is 1, the others are 0. *)
Definition one_of (vars : list string) (row : list Qc) (group : list string) : Prop :=
  exists v, v ∈ group /\ value vars row v = 1%Qc /\
    forall v', v' ∈ group -> v' <> v -> value vars row v' = 0%Qc.

(** One-hot groups: not empty, of boolean variables, none twice. *)
Definition groups_ok (d : domain) (gs : list (list string)) : Prop :=
  NoDup (concat gs) /\ Forall (fun g => g <> []) gs /\ (forall v, v ∈ concat gs -> v ∈ names d TBool).

(** A formula the checkers evaluate: over the variables of the domain, typed, without
    exponentials and the like; boolean respectively numeric at every point. *)
Record query (d : domain) (f : fm) : Prop := {
  q_over : forall x t, (x, t) ∈ syms f -> x ∈ d_vars d;
  q_wf : wf_fm f = true; q_plain : plain f = true; q_typed : typeof f <> None }.
Definition bool_query (d : domain) (f : fm) : Prop := query d f /\ proper f.
Definition num_query (d : domain) (f : fm) : Prop :=
  query d f /\ forall e, exists q, eval e f = Some (VN q).

(** A row satisfies a formula; the weight of a row. *)
Definition holds (vars : list string) (f : fm) (row : list Qc) : bool :=
  match eval (row_env vars row) f with Some (VB b) => b | _ => false end.
Definition weight_of (vars : list string) (w : option fm) (row : list Qc) : Qc :=
  match w with
  | None => 1%Qc
  | Some w => match eval (row_env vars row) w with Some (VN q) => q | _ => 0%Qc end
  end.

(** The [n]-th root stays in [0, 1). *)
Definition root_ok (root : nat -> Qc -> Qc) : Prop :=
  forall n u, (0 <= u)%Qc -> (u < 1)%Qc -> (0 <= root n u)%Qc /\ (root n u < 1)%Qc.

(** Total weight of the rows that satisfy a test. *)
Definition weight_where (vars : list string) (w : option fm) (t : list Qc -> bool) (rows : list (list Qc)) : Qc :=
  qsum (map (fun row => if t row then weight_of vars w row else 0%Qc) rows).
