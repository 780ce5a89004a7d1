(** Vocabulary for C30-C33. *)

From Verif Require Import Base Dict Smt Math_Model Lit_Model Lit_Spec Engine_Spec Sdd_Model.

(** Truth of a diagram under an assignment of the variable numbers. *)
Definition lit_true (w : nat -> bool) (z : Z) : bool :=
  if (z <? 0)%Z then negb (w (Z.abs_nat z)) else w (Z.abs_nat z).
Fixpoint sat (w : nat -> bool) (n : sdd) : bool :=
  match n with
  | STrue => true
  | SFalse => false
  | SLit z => lit_true w z
  | SDec els => existsb (fun ps : sdd * sdd => sat w ps.1 && sat w ps.2) els
  end.

(** The variable numbers occurring in a diagram. *)
Fixpoint svars (n : sdd) : list nat :=
  match n with
  | STrue | SFalse => []
  | SLit z => [Z.abs_nat z]
  | SDec els => concat (map (fun ps : sdd * sdd => svars ps.1 ++ svars ps.2) els)
  end.

(** The two properties of sentential decision diagrams that counting relies on: the
    prime and the sub of an element have no variable in common, and the primes of
    a node exclude each other.  (They hold in every diagram that respects a vtree.) *)
Inductive is_sdd : sdd -> Prop :=
| is_true : is_sdd STrue
| is_false : is_sdd SFalse
| is_lit z : is_sdd (SLit z)
| is_dec els :
    Forall (fun ps : sdd * sdd => is_sdd ps.1 /\ is_sdd ps.2) els ->
    (forall p s v, (p, s) ∈ els -> v ∈ svars p -> v ∉ svars s) ->
    (forall i j p s q t w, els !! i = Some (p, s) -> els !! j = Some (q, t) -> i <> j ->
       sat w p = true -> sat w q = true -> False) ->
    is_sdd (SDec els).

(** What is assumed of a manager over the variables [vs]: there is a class of nodes
    (those it hands out) on which its operations are the boolean ones, and these
    nodes are diagrams over [vs]. *)
Record sound_manager (vs : list nat) (M : manager) (own : sdd -> Prop) : Prop := {
  sm_true : own (m_true M) /\ forall w, sat w (m_true M) = true;
  sm_false : own (m_false M) /\ forall w, sat w (m_false M) = false;
  sm_l : forall v, v ∈ vs -> own (m_l M (Z.of_nat v)) /\ forall w, sat w (m_l M (Z.of_nat v)) = w v;
  sm_conjoin : forall a b, own a -> own b ->
    own (m_conjoin M a b) /\ forall w, sat w (m_conjoin M a b) = sat w a && sat w b;
  sm_disjoin : forall a b, own a -> own b ->
    own (m_disjoin M a b) /\ forall w, sat w (m_disjoin M a b) = sat w a || sat w b;
  sm_negate : forall a, own a -> own (m_negate M a) /\ forall w, sat w (m_negate M a) = negb (sat w a);
  sm_own : forall a, own a -> is_sdd a /\ forall v, v ∈ svars a -> v ∈ vs }.

(** The variables 1..n. *)
Definition upto (n : nat) : list nat := seq 1 n.

(** The assignment of the numbers that a point gives through the literal table. *)
Definition number_world (i : linfo) (e : env) (n : nat) : bool :=
  match number_to_val i (Z.of_nat n) with Ok m => meaning_true e m | Err _ => false end.

(** All assignments of a list of numbers (false elsewhere). *)
Fixpoint assignments (vs : list nat) : list (nat -> bool) :=
  match vs with
  | [] => [fun _ => false]
  | v :: vs => map (fun w x => if decide (x = v) then true else w x) (assignments vs) ++
               map (fun w x => if decide (x = v) then false else w x) (assignments vs)
  end.

(** Sum over all models of the product of the literal weights; the weight of a
    negative literal is one minus that of the positive one. *)
Definition model_weight (p : nat -> Qc) (vs : list nat) (w : nat -> bool) : Qc :=
  qprod (map (fun v => if w v then p v else (1 - p v)%Qc) vs).
Definition model_count (p : nat -> Qc) (vs : list nat) (n : sdd) : Qc :=
  qsum (map (fun w => if sat w n then model_weight p vs w else 0%Qc) (assignments vs)).

(** Number of boolean worlds over [bools] in which the diagram is true, with the
    reals as in [e]. *)
Definition world_count (i : linfo) (bools : list string) (e : env) (n : sdd) : Qc :=
  qsum (map (fun b => if sat (number_world i (Env b (er e))) n then 1%Qc else 0%Qc) (worlds bools)).

(** The boolean variables a diagram mentions. *)
Definition names (i : linfo) (n : sdd) : list string :=
  flat_map (fun v => match number_to_val i (Z.of_nat v) with Ok (MBool x) => [x] | _ => [] end) (svars n).

(** Conjunctions of the given tests and their negations: these regions are convex. *)
Inductive conj_of_tests (tests : list fm) : fm -> Prop :=
| ct_true : conj_of_tests tests (BoolC true)
| ct_test c : c ∈ tests -> conj_of_tests tests c
| ct_not c : c ∈ tests -> conj_of_tests tests (mkNot c)
| ct_and a b : conj_of_tests tests a -> conj_of_tests tests b -> conj_of_tests tests (AndN [a; b]).

(** Number of worlds over [bools], and the weight that the enumerated regions give
    to a point. *)
Definition region_count (bools : list string) (e : env) (l : list (fm * list string)) : Qc :=
  qsum (map (fun r : fm * list string =>
    if bool_decide (eval e r.1 = Some (VB true)) then qpow (qz 2) (length bools - length r.2) else 0%Qc) l).

(** Expressions whose comparisons are indicator functions. *)
Record sound_indicator {E : Type} (le lt : E -> E -> E) (den : E -> env -> option Qc) : Prop := {
  si_le : forall a b e x y, den a e = Some x -> den b e = Some y ->
    den (le a b) e = Some (if qle x y then 1 else 0)%Qc;
  si_lt : forall a b e x y, den a e = Some x -> den b e = Some y ->
    den (lt a b) e = Some (if qlt x y then 1 else 0)%Qc }.

Definition same_set (a b : list string) : Prop := forall x, x ∈ a <-> x ∈ b.

(** At every decision node, taking the elements from left to right: if an element
    mentions as many booleans as the elements before it together, it mentions the
    same ones. *)
Inductive aligned (i : linfo) : sdd -> Prop :=
| al_true : aligned i STrue
| al_false : aligned i SFalse
| al_lit z : aligned i (SLit z)
| al_dec els :
    Forall (fun ps : sdd * sdd => aligned i ps.1 /\ aligned i ps.2) els ->
    (forall before p s after, els = before ++ (p, s) :: after -> before <> [] ->
       length (remove_dups (names i (SDec before))) = length (remove_dups (names i (SDec [(p, s)]))) ->
       same_set (names i (SDec before)) (names i (SDec [(p, s)]))) ->
    aligned i (SDec els).

(** At every decision node all elements mention the same booleans. *)
Inductive uniform (i : linfo) : sdd -> Prop :=
| un_true : uniform i STrue
| un_false : uniform i SFalse
| un_lit z : uniform i (SLit z)
| un_dec els :
    Forall (fun ps : sdd * sdd => uniform i ps.1 /\ uniform i ps.2) els ->
    (forall ps qt, ps ∈ els -> qt ∈ els -> same_set (names i (SDec [ps])) (names i (SDec [qt]))) ->
    uniform i (SDec els).
