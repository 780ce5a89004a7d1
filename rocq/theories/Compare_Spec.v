(** C68: what a user expects of the tasks volume, prob and compare when several engines
    are given. *)

From Verif Require Import Base Dict Smt Compare_Model.

(** What the engine replies: its volume, or its probabilities of the queries. *)
Inductive replies (e : runner) : option (list fm) -> Res (option answer) -> Prop :=
| replies_volume v : r_volume e = Ok (Some v) -> replies e None (Ok (Some (AVolume v)))
| replies_no_volume : r_volume e = Ok None -> replies e None (Ok None)
| replies_volume_err x : r_volume e = Err x -> replies e None (Err x)
| replies_probs qs ps : r_probabilities e qs = Ok (Some ps) -> replies e (Some qs) (Ok (Some (AProbabilities ps)))
| replies_no_probs qs : r_probabilities e qs = Ok None -> replies e (Some qs) (Ok None)
| replies_probs_err qs x : r_probabilities e qs = Err x -> replies e (Some qs) (Err x).

(** The answer of one engine in a comparison *)
Definition result_of (query : option fm) (e : runner) : Res (option Qc) :=
  match query with None => r_volume e | Some q => r_probability e q end.

(** [v] is the answer of the exact engine at position [k]. *)
Definition exact_answer (engines : list (option runner)) (query : option fm) (k : nat) (v : Qc) : Prop :=
  exists e, engines !! k = Some (Some e) /\ r_exact e = true /\ result_of query e = Ok (Some v).

(** Two answers agree up to a relative error of 1/100000 of either. *)
Definition agree (a b : Qc) : Prop :=
  (qabs (a - b) <= Q2Qc (1 # 100000) * qabs a)%Qc /\ (qabs (a - b) <= Q2Qc (1 # 100000) * qabs b)%Qc.
Definition all_agree (engines : list (option runner)) (query : option fm) : Prop :=
  forall j k a b, exact_answer engines query j a -> exact_answer engines query k b -> agree a b.
Definition first_exact (engines : list (option runner)) (query : option fm) (v : Qc) : Prop :=
  exists k, exact_answer engines query k v /\ forall j w, exact_answer engines query j w -> (k <= j)%nat.
