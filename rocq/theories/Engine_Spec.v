(** Vocabulary for C17-C19. *)

From Verif Require Import Base Dict Smt Engine_Model.

(** A formula that is true or false at every point. *)
Definition proper (f : fm) : Prop := forall e, exists b, eval e f = Some (VB b).

(** An exact engine: its volume of a boolean formula is a number that depends only on
    the meaning of the formula, is not negative, and adds up over a case split. *)
Record exact_engine (vol : fm -> Res Qc) (mu : fm -> Qc) : Prop := {
  ee_vol : forall f, proper f -> vol f = Ok (mu f);
  ee_meaning : forall f g, proper f -> proper g -> fequiv f g -> mu f = mu g;
  ee_nonneg : forall f, proper f -> (0 <= mu f)%Qc;
  ee_split : forall f g, proper f -> proper g ->
    (mu (AndN [f; g]) + mu (AndN [f; NotN g]))%Qc = mu f }.

(** Wherever the support holds, [q] implies [r]. *)
Definition implies_on (s q r : fm) : Prop :=
  forall e, eval e s = Some (VB true) -> eval e q = Some (VB true) -> eval e r = Some (VB true).

(** All assignments to a list of booleans (others false). *)
Fixpoint worlds (bools : list string) : list (string -> bool) :=
  match bools with
  | [] => [fun _ => false]
  | v :: vs => map (fun w x => if decide (x = v) then true else w x) (worlds vs) ++
               map (fun w x => if decide (x = v) then false else w x) (worlds vs)
  end.

(** The weighted indicator of a formula at a point. *)
Definition integrand (s w : fm) (e : env) : Qc :=
  match eval e s, eval e w with Some (VB true), Some (VN q) => q | _, _ => 0%Qc end.

(** Weighted model integral: sum over boolean worlds of an integral [J] over the real
    variables. *)
Definition wmi (J : ((string -> Qc) -> Qc) -> Qc) (bools : list string) (s w : fm) : Qc :=
  qsum (map (fun b => J (fun r => integrand s w (Env b r))) (worlds bools)).

(** What is asked of an integral here. *)
Record integral (J : ((string -> Qc) -> Qc) -> Qc) : Prop := {
  in_ext : forall f g, (forall r, f r = g r) -> J f = J g;
  in_zero : J (fun _ => 0%Qc) = 0%Qc }.

(** The evidence as literals. *)
Definition literals (s : list (string * bool)) : list fm :=
  map (fun p : string * bool => if snd p then Sym (fst p) TBool else NotN (Sym (fst p) TBool)) s.
