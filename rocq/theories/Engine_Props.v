(** C17-C19: probabilities, evidence, temporary files (pywmi/engine.py, pywmi/temp.py). *)

From Verif Require Import Base Dict Smt Smt_Facts Poly_Proofs Domain_Model Domain_Spec Domain_Proofs Domain_Props
  Engine_Model Engine_Spec Engine_Proofs.

(** * C17 *)

Theorem C17_ratio vol mu s qs : exact_engine vol mu ->
  proper s -> Forall proper qs ->
  compute_probabilities vol s qs =
    Ok (map (fun q => if qlt 0 (mu s) then Some (mu (AndN [s; q]) / mu s)%Qc else None) qs).
Proof. intros E. exact (probabilities_ratio vol mu E s qs). Qed.
Print Assumptions C17_ratio.

(** Every probability lies between zero and one. *)
Theorem C17_range vol mu s q p : exact_engine vol mu ->
  proper s -> proper q ->
  compute_probability vol s q = Ok (Some p) -> (0 <= p)%Qc /\ (p <= 1)%Qc.
Proof.
  intros E Hs Hq H. rewrite (probability_ratio vol mu E s q Hs Hq) in H.
  destruct (qlt 0 (mu s)) eqn:Hpos; [|done]. apply qlt_spec in Hpos. injection H as <-. split.
  - rewrite <- (div_zero_l (mu s)). apply div_le_compat; [done|]. apply (ee_nonneg _ _ E). by apply proper_and2.
  - rewrite <- (div_self (mu s) Hpos). apply div_le_compat; [done|]. by apply (mu_le vol mu E).
Qed.
Print Assumptions C17_range.

(** A query and its negation. *)
Theorem C17_complement vol mu s q : exact_engine vol mu ->
  proper s -> proper q -> (0 < mu s)%Qc ->
  exists p p', compute_probabilities vol s [q; NotN q] = Ok [Some p; Some p'] /\ (p + p' = 1)%Qc.
Proof.
  intros E Hs Hq Hpos. pose proof (proper_not q Hq) as Hn.
  eexists _, _. rewrite (probabilities_ratio vol mu E) by (done || by repeat constructor).
  cbn [map]. apply qlt_spec in Hpos as Hb. rewrite Hb. split; [reflexivity|].
  rewrite div_add, (ee_split _ _ E s q Hs Hq). by apply div_self.
Qed.
Print Assumptions C17_complement.

(** Monotone under implication (on the support). *)
Theorem C17_monotone vol mu s q r p p' : exact_engine vol mu ->
  proper s -> proper q -> proper r ->
  implies_on s q r ->
  compute_probability vol s q = Ok (Some p) -> compute_probability vol s r = Ok (Some p') -> (p <= p')%Qc.
Proof.
  intros E Hs Hq Hr Hi H1 H2.
  rewrite (probability_ratio vol mu E s q Hs Hq) in H1. rewrite (probability_ratio vol mu E s r Hs Hr) in H2.
  destruct (qlt 0 (mu s)) eqn:Hpos; [|done]. apply qlt_spec in Hpos.
  injection H1 as <-. injection H2 as <-. apply div_le_compat; [done|]. by apply (mu_mono vol mu E).
Qed.
Print Assumptions C17_monotone.

(** Without positive volume there is no probability. *)
Theorem C17_none vol mu s q : exact_engine vol mu ->
  proper s -> proper q -> ~ (0 < mu s)%Qc ->
  compute_probability vol s q = Ok None.
Proof.
  intros E Hs Hq Hn. rewrite (probability_ratio vol mu E s q Hs Hq).
  destruct (qlt 0 (mu s)) eqn:Hpos; [|done]. by apply qlt_spec in Hpos.
Qed.
Print Assumptions C17_none.

(** An exact engine: weighted counting over a list of points. *)
Definition mass (pts : list (env * Qc)) (f : fm) : Qc :=
  qsum (map (fun p => match eval (fst p) f with Some (VB true) => snd p | _ => 0%Qc end) pts).

Lemma mass_exact pts : Forall (fun p => 0 <= snd p)%Qc pts ->
  exact_engine (fun f => Ok (mass pts f)) (mass pts).
Proof.
  intros HP. unfold mass. split.
  - done.
  - intros f g _ _ Hfg. f_equal. apply map_ext. intros p. by rewrite Hfg.
  - intros f _. induction HP as [|p pts Hp _ IH]; [by vm_compute|]. cbn [map]. rewrite qsum_cons.
    assert (0 <= match eval (fst p) f with Some (VB true) => snd p | _ => 0 end)%Qc as H.
    { destruct (eval (fst p) f) as [[[]|]|]; first [exact Hp|by vm_compute]. }
    qclra.
  - intros f g Hf Hg. induction HP as [|p pts Hp _ IH]; [by vm_compute|]. cbn [map]. rewrite !qsum_cons.
    rewrite <- IH, !eval_AndN2. cbn [eval]. destruct (Hf (fst p)) as [a ->], (Hg (fst p)) as [b ->].
    destruct a, b; cbn; ring.
Qed.

(** Three weighted points; support a, query x <= 1. *)
Definition ex_pt (a : bool) (x : Qc) : env := Env (fun _ => a) (fun _ => x).
Definition ex_pts : list (env * Qc) := [(ex_pt true 0, qz 2); (ex_pt true (qz 2), qz 3); (ex_pt false 0, qz 5)]%Qc.
Example C17_example :
  exact_engine (fun f => Ok (mass ex_pts f)) (mass ex_pts) /\
  proper (Sym "a" TBool) /\ proper (LeN (Sym "x" TReal) (RealC 1)) /\
  compute_probability (fun f => Ok (mass ex_pts f)) (Sym "a" TBool) (LeN (Sym "x" TReal) (RealC 1)) =
    Ok (Some (Q2Qc (2 # 5))).
Proof.
  split; [apply mass_exact; repeat constructor; by vm_compute|].
  split; [intros e; by eexists|]. split; [intros e; by eexists|]. vm_compute. reflexivity.
Qed.

(** * C18 *)

(** For every assignment to boolean variables of the domain: the conditioned problem
    has exactly the other variables, and its integral over the remaining booleans is
    the integral of the original problem with the evidence added as constraints. *)
Theorem C18_evidence J simp d sup w (ev : list (string * bool)) : integral J ->
  (forall f, typed f -> fequiv (simp f) f) ->
  wf_domain d -> typed sup -> typed w ->
  NoDup (map fst ev) -> (forall n, n ∈ map fst ev -> n ∈ names d TBool) ->
  exists d' sup' w',
    with_evidence simp d sup w (map (fun p => (Sym (fst p) TBool, BoolC (snd p))) ev) = Ok (d', sup', w') /\
    wf_domain d' /\
    d_vars d' = filter (fun v => v ∉ map fst ev) (d_vars d) /\
    (forall v, v ∈ names d' TBool <-> v ∈ names d TBool /\ v ∉ map fst ev) /\
    names d' TReal = names d TReal /\ d_doms d' = d_doms d /\
    wmi J (names d' TBool) sup' w' = wmi J (names d TBool) (AndN (sup :: literals ev)) w.
Proof. exact (evidence_ok J simp d sup w ev). Qed.
Print Assumptions C18_evidence.

(** Anything else is rejected. *)
Theorem C18_rejects simp d sup w subs out : with_evidence simp d sup w subs = Ok out ->
  exists ev, subs = map (fun p => (Sym (fst p) TBool, BoolC (snd p))) ev.
Proof.
  unfold with_evidence. intros H. destruct (rmapM check_evidence subs) as [ev|] eqn:E; [|done].
  exists ev. by apply check_evidence_inv.
Qed.
Print Assumptions C18_rejects.

(** Two booleans, one of them given; the integral is evaluation at x = 1. *)
Example C18_example :
  let d := Dom ["a"; "b"; "x"] [("a", TBool); ("b", TBool); ("x", TReal)] [("x", (Some 0%Qc, Some (qz 3)))] in
  let sup := OrN [Sym "a" TBool; Sym "b" TBool] in
  let w := IteN (Sym "b" TBool) (Sym "x" TReal) (RealC (qz 4)) in
  let J := fun f : (string -> Qc) -> Qc => f (fun _ => 1%Qc) in
  integral J /\ wf_domain d /\ typed sup /\ typed w /\
  (forall n, n ∈ ["b"] -> n ∈ names d TBool) /\
  wmi J (names d TBool) sup w = qz 6 /\
  (exists d' sup' w', with_evidence id d sup w [(Sym "b" TBool, BoolC true)] = Ok (d', sup', w') /\
     names d' TBool = ["a"] /\ wmi J (names d' TBool) sup' w' = qz 2).
Proof.
  cbv zeta. split; [split; [intros f g H; apply H|done]|]. split.
  { split; cbn [d_vars d_types d_doms map fst].
    - apply (bool_decide_unpack _); by vm_compute.
    - apply (bool_decide_unpack _); by vm_compute.
    - done.
    - intros v t. rewrite !elem_of_cons, elem_of_nil. intuition congruence.
    - apply (bool_decide_unpack _); by vm_compute.
    - intros v. rewrite !elem_of_cons, !elem_of_nil. intuition congruence. }
  split; [done|]. split; [done|]. split.
  { intros n Hn. apply elem_of_list_singleton in Hn as ->. vm_compute. right. left. }
  split; [vm_compute; reflexivity|]. eexists _, _, _. split; [reflexivity|]. split; [reflexivity|]. vm_compute. reflexivity.
Qed.

(** * C19 *)

(** However the block ends, the file is gone afterwards and the block's outcome is the
    outcome of its body. *)
Theorem C19_removed {A} fresh (cb : option (string -> world -> world * Res unit))
    (body : string -> world -> world * Res A) w w1 w2 r :
  (forall c, cb = Some c -> exists u, snd (c (fresh (files w))
     (World (files (set_file (fresh (files w)) (Some "") w)) (S (fds w)))) = Ok u) ->
  fst (fst (enter fresh cb w)) = w1 -> body (fresh (files w)) w1 = (w2, r) ->
  exists w', with_block fresh cb body w = (w', r) /\
    files w' (fresh (files w)) = None /\
    (forall m, m <> fresh (files w) -> files w' m = files w2 m).
Proof.
  intros H1 H2 H3. destruct (with_block_ok fresh cb body w w1 w2 r H1 H2 H3) as (w' & ? & ? & ? & _).
  by exists w'.
Qed.
Print Assumptions C19_removed.

(** A block whose callback and body touch only the temporary file leaves the file
    system as it was, whether or not the body raises. *)
Theorem C19_no_trace {A} fresh (cb : option (string -> world -> world * Res unit))
    (body : string -> world -> world * Res A) w :
  files w (fresh (files w)) = None ->
  (forall c, cb = Some c -> forall n w, (exists u, snd (c n w) = Ok u) /\ only_writes n w (fst (c n w))) ->
  (forall n w, only_writes n w (fst (body n w))) ->
  forall m, files (fst (with_block fresh cb body w)) m = files w m.
Proof. exact (with_block_frame fresh cb body w). Qed.
Print Assumptions C19_no_trace.

(** The body overwrites the file and raises. *)
Definition ex_cb : string -> world -> world * Res unit := fun n w => (set_file n (Some "density") w, Ok tt).
Example C19_example :
  let w := World (fun n => if decide (n = "keep") then Some "me" else None) 0 in
  let fresh := fun _ : string -> option string => "tmp1" in
  let body := fun n w => (set_file n (Some "changed") w, @Err unit ValueError) in
  files (fst (fst (enter fresh (Some ex_cb) w))) "tmp1" = Some "density" /\
  snd (with_block fresh (Some ex_cb) body w) = Err ValueError /\
  files (fst (with_block fresh (Some ex_cb) body w)) "tmp1" = None /\
  files (fst (with_block fresh (Some ex_cb) body w)) "keep" = Some "me".
Proof. done. Qed.

(** When the callback itself raises (for instance a full disk while the density is
    written), the block is not entered and the file stays. *)
Theorem C19_callback_raises_refuted : exists fresh cb (body : string -> world -> world * Res unit) w m,
  (forall n w, only_writes n w (fst (cb n w))) /\ (forall n w, only_writes n w (fst (body n w))) /\
  files w m = None /\ files (fst (with_block fresh (Some cb) body w)) m <> None.
Proof.
  exists (fun _ => "tmp1"), (fun n w => (w, Err GenericException)), (fun n w => (w, Ok tt)), (World (fun _ => None) 0), "tmp1".
  done.
Qed.
Print Assumptions C19_callback_raises_refuted.

(** Entering the same object twice leaves the first file. *)
Theorem C19_reentry_refuted : exists fresh w m,
  (forall fs : string -> option string, fs = files w \/ fs = files (set_file "tmp1" (Some "") w) -> fs (fresh fs) = None) /\
  files w m = None /\ files (with_twice fresh None w) m <> None.
Proof.
  exists (fun fs => match fs "tmp1" with None => "tmp1" | Some _ => "tmp2" end), (World (fun _ => None) 0), "tmp1".
  split; [|done]. intros fs [->| ->]; done.
Qed.
Print Assumptions C19_reentry_refuted.

(** Each block leaves one descriptor open. *)
Theorem C19_descriptor_refuted {A} fresh (body : string -> world -> world * Res A) w :
  (forall n w, fds (fst (body n w)) = fds w) ->
  fds (fst (with_block fresh None body w)) = S (fds w).
Proof.
  intros H. unfold with_block, enter. destruct (body _ _) as [w2 a] eqn:E.
  specialize (H (fresh (files w)) (World (files (set_file (fresh (files w)) (Some "") w)) (S (fds w)))).
  rewrite E in H. cbn in H |- *. destruct (files w2 _); exact H.
Qed.
Print Assumptions C19_descriptor_refuted.
