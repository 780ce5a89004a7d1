(** C12-C16: domains, densities and their files (pywmi/domain.py). *)

From Verif Require Import Base Dict Smt Parse_Model Parse_Spec Parse_Props Domain_Model Domain_Spec
  Domain_Proofs Files_Proofs.

(** Booleans a, b and reals x in [0, 2], y in [-1, 3]. *)
Definition ex_bounds : list (string * interval) :=
  [("x", (Some 0%Qc, Some (qz 2))); ("y", (Some (qz (-1)), Some (qz 3)))].
Definition ex_dom : domain :=
  Dom ["a"; "b"; "x"; "y"] [("a", TBool); ("b", TBool); ("x", TReal); ("y", TReal)] ex_bounds.

(** * C12 *)

(** Domains built by [make] are well formed: with a dictionary of bounds, and with a
    list of names and a list of bounds. *)
Theorem C12_make_dict bools bounds : NoDup (bools ++ map fst bounds) ->
  exists d, make (Some bools) (Some (RDict bounds)) None None = Ok d /\ wf_domain d /\
    d_vars d = bools ++ map fst bounds /\ d_doms d = bounds /\ names d TBool = bools.
Proof. exact (make_dict_wf bools bounds). Qed.
Print Assumptions C12_make_dict.

Theorem C12_make_lists bools reals (bs : list interval) :
  NoDup (bools ++ reals) -> length bs = length reals ->
  exists d, make (Some bools) (Some (RNames reals)) (Some bs) None = Ok d /\ wf_domain d /\
    d_vars d = bools ++ reals /\ d_doms d = zip reals bs.
Proof. exact (make_list_wf bools reals bs). Qed.
Print Assumptions C12_make_lists.

(** The bounds hold exactly inside the box.  [fl] is Python's [float()]; the bounds
    are floats already. *)
Theorem C12_bounds_are_box fl d : wf_domain d ->
  (forall v lb ub q, (v, (lb, ub)) ∈ d_doms d -> lb = Some q \/ ub = Some q -> fl q = q) ->
  exists g, get_bounds fl d = Ok g /\ forall e,
    (exists b, eval e g = Some (VB b)) /\
    (eval e g = Some (VB true) <-> forall v b, (v, b) ∈ d_doms d -> inside (er e v) b).
Proof. exact (get_bounds_box fl d). Qed.
Print Assumptions C12_bounds_are_box.

Theorem C12_box_volume d lens : wf_domain d -> names d TReal <> [] -> box d lens ->
  get_bounding_box_volume d = Ok (Fin (box_size lens)).
Proof. exact (box_volume d lens). Qed.
Print Assumptions C12_box_volume.

Lemma ex_dom_made : make (Some ["a"; "b"]) (Some (RDict ex_bounds)) None None = Ok ex_dom.
Proof. reflexivity. Qed.
Lemma ex_dom_wf : wf_domain ex_dom.
Proof.
  destruct (C12_make_dict ["a"; "b"] ex_bounds) as (d & Hd & W & _); [dec|].
  rewrite ex_dom_made in Hd. by injection Hd as <-.
Qed.
Example C12_example : wf_domain ex_dom /\ names ex_dom TReal = ["x"; "y"] /\
  box ex_dom [("x", 0%Qc, qz 2); ("y", qz (-1), qz 3)] /\
  box_size [("x", 0%Qc, qz 2); ("y", qz (-1), qz 3)] = qz 8.
Proof. split; [exact ex_dom_wf|]. split; [by vm_compute|]. split; [done|dec]. Qed.

(** With fewer bounds than names, [make] silently builds a domain with an untyped
    variable. *)
Theorem C12_make_short_refuted : exists d,
  make (Some []) (Some (RNames ["x"; "y"])) (Some [(Some 0%Qc, Some 1%Qc)]) None = Ok d /\
  real_vars d = Err KeyError.
Proof. eexists. split; reflexivity. Qed.
Print Assumptions C12_make_short_refuted.

(** * C13 *)

(** Domains with a real variable. *)
Theorem C13_volume_partial d lens : wf_domain d -> names d TReal <> [] -> box d lens ->
  get_volume d = Ok (Fin (box_size lens * qpow (qz 2) (length (names d TBool)))%Qc).
Proof. exact (volume_ok d lens). Qed.
Print Assumptions C13_volume_partial.

Theorem C13_unbounded d : wf_domain d ->
  (exists v b, (v, b) ∈ d_doms d /\ (fst b = None \/ snd b = None)) -> get_volume d = Ok Inf.
Proof. exact (volume_inf d). Qed.
Print Assumptions C13_unbounded.

Example C13_example : get_volume ex_dom = Ok (Fin (qz 32)).
Proof.
  rewrite (C13_volume_partial ex_dom [("x", 0%Qc, qz 2); ("y", qz (-1), qz 3)] ex_dom_wf); [|done|done].
  f_equal.
Qed.

(** Without real variables the volume is zero instead of 2^n. *)
Theorem C13_boolean_domain_refuted d : wf_domain d -> names d TReal = [] -> get_volume d = Ok (Fin 0).
Proof. exact (volume_bool_only d). Qed.
Print Assumptions C13_boolean_domain_refuted.

Example C13_boolean_domain_example :
  exists d, make (Some ["a"; "b"]) None None None = Ok d /\ names d TReal = [] /\ names d TBool = ["a"; "b"].
Proof. eexists. split; [reflexivity|]. by vm_compute. Qed.

(** * C14 *)

Theorem C14_domain_roundtrip d : (forall v t, (v, t) ∈ d_types d -> t = TBool \/ t = TReal) ->
  exists s, dom_get_state d = Ok s /\ dom_from_state s = Ok d.
Proof. exact (dom_state_roundtrip d). Qed.
Print Assumptions C14_domain_roundtrip.

(** Same restrictions on the formulas as in C01. *)
Theorem C14_density_roundtrip_partial read to_float show show_int n :
  float_ok read to_float show ->
  (forall v t, (v, t) ∈ d_types (n_dom n) -> t = TBool \/ t = TReal) ->
  (forall f, f = n_support n \/ f = n_weight n \/ f ∈ n_queries n ->
    storable to_float f = true /\ wf_fm f = true /\ typeof f <> None /\ exact_consts to_float f = true) ->
  exists s m, den_get_state to_float show show_int n = Ok s /\ den_from_state read s = Ok m /\ same_density m n.
Proof. exact (density_roundtrip read to_float show show_int n). Qed.
Print Assumptions C14_density_roundtrip_partial.

(** A density whose support is FALSE is read back with support TRUE. *)
Theorem C14_false_support_refuted read to_float show show_int : exists n s m,
  n = Density ex_dom (BoolC false) (Sym "x" TReal) [] /\
  den_get_state to_float show show_int n = Ok s /\ den_from_state read s = Ok m /\
  n_support m = BoolC true.
Proof. eexists _, _, _. split; [reflexivity|]. split; [reflexivity|]. split; reflexivity. Qed.
Print Assumptions C14_false_support_refuted.

Example C14_example : exists s m,
  let n := Density ex_dom ex_formula ex_weight [ex_formula; Sym "a" TBool] in
  den_get_state ex_to_float ex_show (fun _ => "") n = Ok s /\ den_from_state ex_read s = Ok m /\ same_density m n.
Proof.
  apply C14_density_roundtrip_partial; [exact ex_float_ok| |].
  - intros v t Hin. exact (wd_type _ ex_dom_wf v t Hin).
  - cbn [n_support n_weight n_queries]. intros f Hf.
    assert (f = ex_formula \/ f = ex_weight \/ f = Sym "a" TBool) as [->|[->| ->]]; [|by vm_compute..].
    destruct Hf as [?|[?|Hf]]; [auto..|].
    apply elem_of_cons in Hf as [->|Hf]; [auto|]. apply elem_of_list_singleton in Hf as ->. auto.
Qed.

(** * C15 *)

Theorem C15_project d keep data : wf_domain d -> NoDup keep -> (forall v, v ∈ keep -> v ∈ d_vars d) ->
  Forall (fun row => length row = length (d_vars d)) data ->
  exists d' data', project d keep data = Ok (d', data') /\
    d_vars d' = keep /\ wf_domain d' /\
    (forall v t, (v, t) ∈ d_types d' <-> v ∈ keep /\ (v, t) ∈ d_types d) /\
    (forall v b, (v, b) ∈ d_doms d' <-> v ∈ keep /\ (v, b) ∈ d_doms d) /\
    Forall2 (fun row row' => length row' = length keep /\
      forall j k v, keep !! j = Some v -> d_vars d !! k = Some v -> row' !! j = row !! k) data data'.
Proof. exact (project_ok d keep data). Qed.
Print Assumptions C15_project.

Example C15_example :
  exists d', project ex_dom ["y"; "a"] [[qz 1; 0; qz 2; qz 3]; [0; 0; qz 5; qz 7]]%Qc =
    Ok (d', [[qz 3; qz 1]; [qz 7; 0]]%Qc) /\ d_doms d' = [("y", (Some (qz (-1)), Some (qz 3)))].
Proof. eexists. split; reflexivity. Qed.

(** * C16 *)

(** Any listing order; previous files must not include a query file beyond the new
    queries, nor a weight file when there is no weight to save. *)
Theorem C16_save_load_partial dump load write read n (dir : option (list (string * string))) :
  (forall v t, (v, t) ∈ d_types (f_dom n) -> t = TBool \/ t = TReal) ->
  (forall s, load (dump s) = Ok s) ->
  (forall f, f = f_support n \/ f_weight n = Some f \/ f ∈ f_queries n ->
    exists f', read (write f) = Ok f' /\ fequiv f' f) ->
  NoDup (map fst (default [] dir)) ->
  (f_weight n = None -> "weight.smt2" ∉ map fst (default [] dir)) ->
  (forall f, f ∈ map fst (default [] dir) -> is_query_file f = true ->
    exists j, j < length (f_queries n) /\ f = query_file j) ->
  exists dir', to_file dump write n dir = Ok dir' /\
    forall listing, listing ≡ₚ dir' ->
      exists m, from_file load read listing = Ok m /\ same_files m n.
Proof. exact (file_roundtrip dump load write read n dir). Qed.
Print Assumptions C16_save_load_partial.

(** Twelve queries in a directory that held three: the names sort numerically. *)
Definition ex_q (i : nat) : fm := Sym (query_file i) TBool.
Definition ex_fden (k : nat) : fdensity := FDensity ex_dom (BoolC true) None (map ex_q (seq 0 k)).
Definition ex_write (f : fm) : string := match f with Sym n _ => n | _ => "T" end.
Definition ex_read_fm (s : string) : Res fm := if decide (s = "T") then Ok (BoolC true) else Ok (Sym s TBool).
Example C16_example :
  exists d1 d2 m, to_file (fun _ => "") ex_write (ex_fden 3) None = Ok d1 /\
    to_file (fun _ => "") ex_write (ex_fden 12) (Some d1) = Ok d2 /\
    from_file (fun _ => dom_get_state ex_dom) ex_read_fm (rev d2) = Ok m /\ f_queries m = map ex_q (seq 0 12).
Proof. eexists _, _, _. split; [vm_compute; reflexivity|]. split; [vm_compute; reflexivity|]. split; vm_compute; reflexivity. Qed.

(** Saving fewer queries over more: the stale queries come back, and so does a stale
    weight. *)
Theorem C16_stale_queries_refuted : exists d1 d2 m,
  to_file (fun _ => "") ex_write (ex_fden 3) None = Ok d1 /\
  to_file (fun _ => "") ex_write (ex_fden 1) (Some d1) = Ok d2 /\
  from_file (fun _ => dom_get_state ex_dom) ex_read_fm d2 = Ok m /\
  length (f_queries (ex_fden 1)) = 1 /\ length (f_queries m) = 3.
Proof. eexists _, _, _. split; [vm_compute; reflexivity|]. split; [vm_compute; reflexivity|]. split; [vm_compute; reflexivity|done]. Qed.
Print Assumptions C16_stale_queries_refuted.

Theorem C16_stale_weight_refuted : exists d1 d2 m,
  to_file (fun _ => "") ex_write (FDensity ex_dom (BoolC true) (Some (Sym "x" TBool)) []) None = Ok d1 /\
  to_file (fun _ => "") ex_write (FDensity ex_dom (BoolC true) None []) (Some d1) = Ok d2 /\
  from_file (fun _ => dom_get_state ex_dom) ex_read_fm d2 = Ok m /\ f_weight m = Some (Sym "x" TBool).
Proof. eexists _, _, _. split; [vm_compute; reflexivity|]. split; [vm_compute; reflexivity|]. split; [vm_compute; reflexivity|done]. Qed.
Print Assumptions C16_stale_weight_refuted.
