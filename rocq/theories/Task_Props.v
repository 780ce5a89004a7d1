(** C71: the tasks convert, normalize, plot and print of the command line (__main__.py:362-422),
    with the files they read and write (export.py, temp.py) and XaddEngine.normalize. *)

From Verif Require Import Base Smt Parse_Model Parse_Spec Parse_Props Domain_Model Domain_Spec
  Domain_Props Print_Model Print_Spec Print_Props Task_Model Task_Spec Task_Proofs.

(** * convert *)

(** A density the JSON format can hold is written to the path of "-o", or next to the input
    with ".converted.json" appended: the task succeeds, the file is read back (by
    Density.from_file) as the same density and no other file changes. *)
Theorem C71_convert_partial read to_float show show_int can_open file json_file n fs :
  float_ok read to_float show -> exact_density to_float n ->
  forall target, (json_file = Some target \/ json_file = None /\ target = file +:+ ".converted.json") ->
  can_open target = true ->
  exists fs' m, task_convert to_float show show_int can_open file json_file n fs = (fs', Ok tt) /\
    den_from_file read target fs' = Ok m /\ same_density m n /\ same_but [target] fs fs'.
Proof.
  intros F E target Ht C.
  assert (match json_file with Some p => p | None => file +:+ ".converted.json" end = target) as T
    by (by destruct Ht as [->|[-> ->]]).
  destruct (to_file_exact read to_float show show_int can_open n target fs F E C)
    as (s & fs' & R & G & (m & M & S) & U).
  exists fs', m. unfold task_convert. rewrite T. split; [done|].
  unfold den_from_file. by rewrite G.
Qed.
Print Assumptions C71_convert_partial.

(** Whatever the density is and however the task ends, only the target can change; without an
    exception it holds the exported state, and with one from an opened file it is empty. *)
Theorem C71_convert_effects to_float show show_int can_open file json_file n fs fs' r :
  task_convert to_float show show_int can_open file json_file n fs = (fs', r) ->
  exists target, (json_file = Some target \/ json_file = None /\ target = file +:+ ".converted.json") /\
    same_but [target] fs fs' /\
    match r with
    | Ok _ => exists s, den_get_state to_float show show_int n = Ok s /\ fs' target = Some (CState s)
    | Err e => if can_open target then den_get_state to_float show show_int n = Err e /\
                 fs' target = Some CEmpty else fs' target = fs target
    end.
Proof.
  unfold task_convert. intros H.
  set (t := match json_file with Some p => p | None => file +:+ ".converted.json" end) in H.
  exists t. split; [subst t; destruct json_file; auto|].
  split; [by eapply to_file_frame|].
  destruct r as [[]|e]; [by eapply to_file_ok|].
  destruct (can_open t) eqn:C.
  - destruct (to_file_err _ _ _ _ _ _ _ _ _ H C) as [A B]. done.
  - unfold den_to_file in H. rewrite C in H. by injection H as <- _.
Qed.
Print Assumptions C71_convert_effects.

(** "A conversion that fails leaves the file that was there" is false: the file is emptied
    before the state is computed, so a density with an integer variable, converted over its own
    file or over an earlier result, leaves an empty file that cannot be read. *)
Theorem C71_convert_failure_refuted read to_float show show_int : exists n fs fs' m e,
  den_from_file read "out.json" fs = Ok m /\
  task_convert to_float show show_int (fun _ => true) "in.mzn" (Some "out.json") n fs = (fs', Err e) /\
  fs' "out.json" = Some CEmpty /\ den_from_file read "out.json" fs' = Err ValueError.
Proof.
  exists (Density (Dom ["i"] [("i", TInt)] []) (BoolC true) (BoolC true) []),
    (dwrite (fun _ => None) "out.json" (CState (NState (DState [] [] []) [] "(const bool True)" "(const bool True)"))).
  do 3 eexists. split; [vm_compute; reflexivity|]. split; [reflexivity|]. split; reflexivity.
Qed.
Print Assumptions C71_convert_failure_refuted.

(** * normalize *)

(** XaddEngine.normalize with an installed library: three new files with different names are
    handed to one call of the process.  The first is read back as the density of the engine, the
    second as the new support (conjoined with the old one if asked for) with weight one over
    the same domain; nothing else on the disk has changed before the call.  However the process
    ends and whatever it writes, the three files are gone afterwards, and nothing else is
    changed after it.  The result is the formula on the first line of the third file; a timeout
    gives None and a failure or an empty file an exception. *)
Theorem C71_normalize_partial read to_float show show_int json_text can_open fresh java jar
    d support weight new conjoin paths fs :
  float_ok read to_float show -> fresh_ok can_open fresh fs -> exact_domain d ->
  exact_formula to_float support -> exact_formula to_float weight -> exact_formula to_float new ->
  typeof support = Some TBool -> typeof new = Some TBool ->
  exists f f2 f3 fs1 fs2 out fs' r,
    NoDup [f; f2; f3] /\ fs f = None /\ fs f2 = None /\ fs f3 = None /\
    holds_density read fs1 f (Density d support weight [BoolC true]) /\
    holds_density read fs1 f2
      (Density d (if conjoin : bool then AndN [support; new] else new) (RealC 1) [BoolC true]) /\
    is_Some (fs1 f3) /\ same_but [f; f2; f3] fs fs1 /\
    java ["java"; "-jar"; jar; "normalize"; f; f2; if paths : bool then "-p" else "-t"; f3] fs1 = (fs2, out) /\
    normalize read to_float show show_int json_text can_open fresh java jar true
      d support weight new conjoin paths fs = (fs', r) /\
    fs' f = None /\ fs' f2 = None /\ fs' f3 = None /\ same_but [f; f2; f3] fs2 fs' /\
    match out with
    | Finished =>
        (forall l ls, fs2 f3 = Some (CText (l :: ls)) -> r = rmap Some (nested_to_smt read l)) /\
        (fs2 f3 = None \/ fs2 f3 = Some CEmpty \/ fs2 f3 = Some (CText []) -> exists e, r = Err e)
    | Failed => exists e, r = Err e
    | TimedOut => r = Ok None
    end.
Proof.
  intros F Fr D S W N TS TN.
  pose proof (exact_true to_float) as ET. pose proof (exact_one _ _ _ F) as E1.
  assert (exact_formula to_float (if conjoin then mkAnd [support; new] else new)) as EN
    by (destruct conjoin; [by apply exact_and|done]).
  set (n1 := Density d support weight [BoolC true]).
  set (n2 := Density d (if conjoin then mkAnd [support; new] else new) (RealC 1) [BoolC true]).
  set (n3 := Density d (BoolC true) (RealC 1) [BoolC true]).
  assert (exact_density to_float n1) as X1 by (split_and!; cbn; try done; by repeat constructor).
  assert (exact_density to_float n2) as X2 by (split_and!; cbn; try done; by repeat constructor).
  assert (exact_density to_float n3) as X3 by (split_and!; cbn; try done; by repeat constructor).
  set (f := fresh fs). destruct (Fr [] fs ltac:(cbn; lia) ltac:(done)) as [F1 C1]. fold f in F1, C1.
  destruct (to_file_exact read to_float show show_int can_open n1 f (dwrite fs f CEmpty) F X1 C1)
    as (s1 & g1 & R1 & G1 & M1 & U1).
  assert (forall q, q <> f -> g1 q = fs q) as V1.
  { intros q Hq. rewrite (U1 q); [by apply dwrite_ne|by intros ->%elem_of_list_singleton]. }
  set (f2 := fresh g1). destruct (Fr [f] g1) as [F2 C2]; [cbn; lia| |].
  { intros q Hq. apply V1. intros ->. apply Hq. left. }
  fold f2 in F2, C2.
  destruct (to_file_exact read to_float show show_int can_open n2 f2 (dwrite g1 f2 CEmpty) F X2 C2)
    as (s2 & g2 & R2 & G2 & M2 & U2).
  assert (forall q, q <> f2 -> g2 q = g1 q) as V2.
  { intros q Hq. rewrite (U2 q); [by apply dwrite_ne|by intros ->%elem_of_list_singleton]. }
  set (f3 := fresh g2). destruct (Fr [f2; f] g2) as [F3 C3]; [cbn; lia| |].
  { intros q Hq. rewrite !elem_of_cons in Hq. rewrite V2, V1 by (intros ->; apply Hq; auto). done. }
  fold f3 in F3, C3.
  destruct (to_file_exact read to_float show show_int can_open n3 f3 (dwrite g2 f3 CEmpty) F X3 C3)
    as (s3 & g3 & R3 & G3 & M3 & U3).
  assert (f2 <> f) as N21 by (intros E; rewrite E in F2; congruence).
  assert (f3 <> f2) as N32 by (intros E; rewrite E in F3; congruence).
  assert (forall q, q <> f3 -> g3 q = g2 q) as V3.
  { intros q Hq. rewrite (U3 q); [by apply dwrite_ne|by intros ->%elem_of_list_singleton]. }
  assert (f3 <> f) as N31.
  { intros E. rewrite E, V2, G1 in F3; [done|congruence]. }
  destruct (java ["java"; "-jar"; jar; "normalize"; f; f2; if paths then "-p" else "-t"; f3] g3)
    as [fs2 out] eqn:J.
  exists f, f2, f3, g3, fs2, out.
  exists (dremove (dremove (dremove fs2 f3) f2) f).
  exists (match out with
          | Finished => rmap Some (import_normalized read json_text f3 fs2)
          | Failed => Err GenericException
          | TimedOut => Ok None end).
  split. { repeat constructor; rewrite ?elem_of_cons, elem_of_nil; intuition congruence. }
  split; [done|]. split; [by rewrite <- V1|]. split; [by rewrite <- V1, <- V2|].
  split. { destruct M1 as (m & M & Q). exists s1, m. by rewrite V3, V2 by congruence. }
  split. { destruct M2 as (m & M & Q). exists s2, m. rewrite V3 by congruence. done. }
  split; [by eexists|].
  split.
  { intros q Hq. rewrite !elem_of_cons in Hq.
    rewrite V3, V2, V1 by (intros ->; apply Hq; auto). done. }
  split; [done|].
  split.
  { unfold normalize. cbn [negb]. unfold with_temp at 1. fold n1 f. rewrite R1.
    unfold with_temp at 1. fold n2 f2. rewrite R2. unfold with_temp. fold n3 f3. rewrite R3, J.
    by destruct out. }
  split; [apply dremove_eq|].
  split; [rewrite dremove_ne by done; apply dremove_eq|].
  split; [rewrite !dremove_ne by done; apply dremove_eq|].
  split.
  { intros q Hq. rewrite !elem_of_cons in Hq. rewrite !dremove_ne; [done|intros ->; apply Hq; auto..]. }
  destruct out; [|by eexists|done].
  unfold import_normalized. split.
  - intros l ls ->. done.
  - intros [-> |[-> | ->]]; by eexists.
Qed.
Print Assumptions C71_normalize_partial.

(** Whatever the formulas are and however the call ends: if the density of the engine can be
    written, and the process changes no other files than the three it is given, the disk is
    afterwards what it was before. *)
Theorem C71_cleanup_partial read to_float show show_int json_text can_open fresh java jar jar_exists
    d support weight new conjoin paths fs fs' r s :
  fresh_ok can_open fresh fs ->
  den_get_state to_float show show_int (Density d support weight [BoolC true]) = Ok s ->
  (forall f f2 flag f3 fs1 p, p ∉ [f; f2; f3] ->
    (java ["java"; "-jar"; jar; "normalize"; f; f2; flag; f3] fs1).1 p = fs1 p) ->
  normalize read to_float show show_int json_text can_open fresh java jar jar_exists
    d support weight new conjoin paths fs = (fs', r) ->
  forall p, fs' p = fs p.
Proof.
  intros Fr St J H. unfold normalize in H. destruct jar_exists; cbn [negb] in H; [|by injection H as <- _].
  assert (same_but [] fs fs') as R; [|intros p; apply R; by apply not_elem_of_nil].
  destruct (Fr [] fs ltac:(cbn; lia) ltac:(done)) as [F1 C1].
  refine (with_temp_frame fresh _ _ fs fs' r [] F1 _ _ H).
  { unfold den_to_file. rewrite C1, St. eexists. split; [done|].
    intros q Hq. rewrite (dwrite_ne _ (fresh fs) (CState s)), dwrite_ne; [done|intros ->; apply Hq; left..]. }
  clear H fs' r. intros g1 g1' r1 S1 H. cbv beta in H.
  destruct (Fr [fresh fs] g1 ltac:(cbn; lia) S1) as [F2 C2].
  refine (with_temp_frame fresh _ _ g1 g1' r1 [fresh fs] F2 _ _ H); [done|].
  clear H g1' r1. intros g2 g2' r2 S2 H. cbv beta in H.
  destruct (den_to_file _ _ _ _ _ (fresh g1) g2) as [g3 r3] eqn:E2.
  pose proof (to_file_frame _ _ _ _ _ _ _ _ _ E2) as U2.
  destruct r3 as [|e].
  2: { injection H as <- _. intros q Hq. apply U2. rewrite elem_of_cons in Hq.
       intros ->%elem_of_list_singleton. apply Hq. by left. }
  assert (same_but [fresh g1; fresh fs] fs g3) as S3.
  { intros q Hq. rewrite !elem_of_cons in Hq.
    rewrite (U2 q), (S2 q), (S1 q); [done|..]; intros ->%elem_of_list_singleton; apply Hq; auto. }
  destruct (Fr [fresh g1; fresh fs] g3 ltac:(cbn; lia) S3) as [F3 C3].
  assert (same_but [fresh g1; fresh fs] g3 g2') as K.
  { refine (with_temp_frame fresh _ _ g3 g2' r2 [fresh g1; fresh fs] F3 _ _ H); [done|].
    clear H g2' r2. intros g4 g4' r4 S4 H. cbv beta in H.
    destruct (den_to_file _ _ _ _ _ (fresh g3) g4) as [g5 r5] eqn:E3.
    pose proof (to_file_frame _ _ _ _ _ _ _ _ _ E3) as U3.
    destruct r5 as [|e].
    2: { injection H as <- _. intros q Hq. apply U3. rewrite elem_of_cons in Hq.
         intros ->%elem_of_list_singleton. apply Hq. by left. }
    destruct (java _ g5) as [g6 out] eqn:Ej.
    assert (g4' = g6) as -> by (destruct out; by injection H as <- _).
    intros q Hq. rewrite !elem_of_cons, elem_of_nil in Hq.
    pose proof (J (fresh fs) (fresh g1) (if paths then "-p" else "-t") (fresh g3) g5 q) as Jq.
    rewrite Ej in Jq. cbn [fst] in Jq. rewrite Jq.
    - apply U3. intros ->%elem_of_list_singleton. apply Hq. auto.
    - rewrite !elem_of_cons, elem_of_nil. intuition. }
  intros q Hq. rewrite (K q); [|done]. apply U2. rewrite elem_of_cons in Hq.
  intros ->%elem_of_list_singleton. apply Hq. by left.
Qed.
Print Assumptions C71_cleanup_partial.

(** "No temporary file is left behind" is false: when the density of the engine cannot be
    written (here a domain with an integer variable) the first file stays on the disk. *)
Theorem C71_temporary_file_refuted read to_float show show_int json_text java jar : exists d support weight new fs fs' e,
  normalize read to_float show show_int json_text (fun _ => true)
    (fun fs => if fs "tmp0" then "tmp1" else "tmp0") java jar true d support weight new true true fs = (fs', Err e) /\
  fs "tmp0" = None /\ fs' "tmp0" = Some CEmpty.
Proof.
  exists (Dom ["i"] [("i", TInt)] []), (BoolC true), (RealC 1), (BoolC true), (fun _ => None).
  do 2 eexists. split; [reflexivity|]. split; reflexivity.
Qed.
Print Assumptions C71_temporary_file_refuted.

(** The task hands the support of the other file over and runs the process as above, with the
    old support kept unless "-t" is given. *)
Theorem C71_normalize_task read to_float show show_int json_text can_open fresh java jar jar_exists
    n m new_path output_path total fs :
  den_from_file read new_path fs = Ok m ->
  exists fs' r r',
    normalize read to_float show show_int json_text can_open fresh java jar jar_exists
      (n_dom n) (n_support n) (n_weight n) (n_support m) (if total : bool then false else true) true fs = (fs', r) /\
    task_normalize read to_float show show_int json_text can_open fresh java jar jar_exists
      n new_path output_path total fs = (fs', r') /\
    ((exists e, r = Err e /\ r' = Err e) \/ (exists o, r = Ok o /\ r' = Ok tt)).
Proof.
  intros H. unfold task_normalize. rewrite H. replace (if total then false else true) with (negb total) by done.
  destruct (normalize _ _ _ _ _ _ _ _ _ _ _ _ _ _ _ _ fs) as [fs' r]. exists fs', r.
  destruct r as [o|e]; eexists; (split; [done|]); (split; [done|]); eauto.
Qed.
Print Assumptions C71_normalize_task.

(** A process that succeeds exactly when it is asked for paths, and writes a weight. *)
Definition ex_java : list string -> disk -> disk * ending := fun args fs =>
  match args with
  | [_; _; _; _; _; _; flag; f3] =>
      if decide (flag = "-p") then (dwrite fs f3 (CText ["(var real x)"]), Finished) else (fs, Failed)
  | _ => (fs, Failed)
  end.
Definition ex_fresh (fs : disk) : string :=
  if fs "t1" then if fs "t2" then "t3" else "t2" else "t1".
Definition ex_disk : disk :=
  dwrite (fun _ => None) "new.json" (CState (NState (DState ["a"] [("a", "bool")] []) [] "(var bool a)" "(const real 1.0)")).
Definition ex_small : density :=
  Density (Dom ["a"; "x"] [("a", TBool); ("x", TReal)] [("x", (Some 0%Qc, Some (qz 2)))])
    (Sym "a" TBool) (Sym "x" TReal) [].

(** "The task writes the normalised weight to its output path" is false: the process succeeds,
    the weight is read, and the path does not exist afterwards. *)
Theorem C71_output_path_refuted : exists fs' r,
  normalize ex_read ex_to_float ex_show (fun _ => "") (fun _ => "") (fun _ => true) ex_fresh ex_java "xadd.jar" true
    (n_dom ex_small) (n_support ex_small) (n_weight ex_small) (Sym "a" TBool) true true ex_disk
    = (r, Ok (Some (Sym "x" TReal))) /\
  task_normalize ex_read ex_to_float ex_show (fun _ => "") (fun _ => "") (fun _ => true) ex_fresh ex_java "xadd.jar" true
    ex_small "new.json" "out.xadd" false ex_disk = (fs', Ok tt) /\
  fs' "out.xadd" = None.
Proof.
  eexists _, _. split; [vm_compute; reflexivity|]. split; [vm_compute; reflexivity|]. reflexivity.
Qed.
Print Assumptions C71_output_path_refuted.

(** "With -t the process dumps the total model instead of paths" is false: the flag given to the
    process stays "-p" (a process that accepts nothing else succeeds), and "-t" drops the old
    support instead. *)
Theorem C71_total_flag_refuted : exists fs',
  task_normalize ex_read ex_to_float ex_show (fun _ => "") (fun _ => "") (fun _ => true) ex_fresh ex_java "xadd.jar" true
    ex_small "new.json" "out.xadd" true ex_disk = (fs', Ok tt).
Proof. eexists. vm_compute; reflexivity. Qed.
Print Assumptions C71_total_flag_refuted.

(** * plot *)

(** With "-d" the plotted formula is true exactly at the points in one support and not in the
    other; without it the support is plotted.  "-o *" stands for the input's name with ".png". *)
Theorem C71_plot read file n output difference fx fy fs :
  match difference with
  | None => True
  | Some p => p <> "" /\ exists m, den_from_file read p fs = Ok m
  end ->
  exists c, task_plot read file n output difference fx fy fs = Ok c /\
    pl_domain c = n_dom n /\ pl_features c = (fx, fy) /\
    (output = None -> pl_output c = None) /\
    (output = Some "*" -> pl_output c = Some (file +:+ ".png")) /\
    (forall o, output = Some o -> o <> "*" -> pl_output c = Some o) /\
    (difference = None -> pl_formula c = n_support n) /\
    (forall p m e a b, difference = Some p -> den_from_file read p fs = Ok m ->
      eval e (n_support n) = Some (VB a) -> eval e (n_support m) = Some (VB b) ->
      exists v, eval e (pl_formula c) = Some (VB v) /\ (v = true <-> a <> b)).
Proof.
  intros H.
  assert (exists out, match output with
      | Some o => if decide (o = "*") then Some (file +:+ ".png") else Some o | None => None end = out /\
    (output = None -> out = None) /\ (output = Some "*" -> out = Some (file +:+ ".png")) /\
    (forall o, output = Some o -> o <> "*" -> out = Some o)) as (out & Eo & O1 & O2 & O3).
  { eexists. split; [reflexivity|]. destruct output as [o|]; [|done].
    destruct (decide (o = "*")) as [->|Ne].
    - split_and!; try done. by intros ? [= <-].
    - split_and!; try done. by intros [= ->]. }
  unfold task_plot. rewrite Eo. destruct difference as [p|].
  - destruct H as [Np [m Hm]]. rewrite decide_False by done. rewrite Hm. cbn [rbind].
    eexists. split; [reflexivity|]. cbn [pl_domain pl_features pl_output pl_formula].
    split_and!; try done.
    intros p' m' e a b [= <-] Hm' Ha Hb. rewrite Hm in Hm'. injection Hm' as <-.
    exists (xorb a b). split; [by apply difference_value|]. by destruct a, b.
  - eexists. split; [reflexivity|]. cbn [pl_domain pl_features pl_output pl_formula].
    split_and!; done.
Qed.
Print Assumptions C71_plot.

(** * print *)

(** Supports and queries whose text is unambiguous (C59), and a weight that can be printed. *)
Definition readable_density (fmt : Qc -> string) (exact : Qc -> Prop) (n : density) : Prop :=
  readable exact (n_support n) /\ (exists w, pretty_print fmt (n_weight n) = Ok w) /\
  Forall (readable exact) (n_queries n).

(** The task prints the whole density: it succeeds, and two densities with the same output have
    supports and queries (as many, in the same order) of the same meaning, and domains and
    weights of the same text. *)
Theorem C71_print_partial fmt exact show_domain n m out :
  float_format fmt exact -> readable_density fmt exact n -> readable_density fmt exact m ->
  (exists out', task_print fmt show_domain n = (out', Ok tt)) /\
  (task_print fmt show_domain n = (out, Ok tt) -> task_print fmt show_domain m = (out, Ok tt) ->
    show_domain (n_dom n) = show_domain (n_dom m) /\ fequiv (n_support n) (n_support m) /\
    pretty_print fmt (n_weight n) = pretty_print fmt (n_weight m) /\
    Forall2 fequiv (n_queries n) (n_queries m)).
Proof.
  intros FF (Sn & [w Hw] & Qn) (Sm & [w' Hw'] & Qm).
  assert (forall l, Forall (readable exact) l -> exists ts, Forall2 (fun q t => pretty_print fmt q = Ok t) l ts) as All.
  { intros l H. induction H as [|q l Hq _ [ts IH]]; [by exists []|].
    destruct (print_succeeds fmt exact q FF Hq) as [t Ht]. exists (t :: ts). by constructor. }
  destruct (print_succeeds fmt exact _ FF Sn) as [s Hs].
  destruct (All _ Qn) as [ts Hts].
  destruct (print_succeeds fmt exact _ FF Sm) as [s' Hs'].
  destruct (All _ Qm) as [ts' Hts'].
  pose proof (task_print_ok fmt show_domain n s w ts Hs Hw Hts) as En.
  pose proof (task_print_ok fmt show_domain m s' w' ts' Hs' Hw' Hts') as Em.
  split; [by eexists|]. intros On Om. rewrite On in En. rewrite Om in Em.
  injection En as En. injection Em as Em. rewrite En in Em. injection Em as Ed Es Ew Eq.
  subst s' w'. assert (ts' = ts) as ->.
  { destruct ts as [|t ts], ts' as [|t' ts']; try done. injection Eq as -> Eq. f_equal.
    clear -Eq. revert ts' Eq. induction ts as [|t ts IH]; intros [|t' ts']; try done.
    cbn. intros [= -> Eq]. f_equal. by apply IH. }
  split; [done|].
  split; [by eapply (print_determines_partial fmt exact)|].
  split; [congruence|].
  clear -FF Qn Qm Hts Hts'. revert Hts' Qm. generalize (n_queries m) as k.
  induction Hts as [|q t l ts Hq _ IH]; intros k Hk Qm; inversion Hk; subst; [done|].
  inversion Qn; subst. inversion Qm; subst.
  constructor; [by eapply (print_determines_partial fmt exact)|by apply IH].
Qed.
Print Assumptions C71_print_partial.

(** "The output tells different weights apart" is false, as parentheses are lost (C59):
    (x + y) * z and x + y * z. *)
Theorem C71_print_weight_refuted fmt show_domain d : exists n m out,
  n_dom n = d /\ n_dom m = d /\
  task_print fmt show_domain n = (out, Ok tt) /\ task_print fmt show_domain m = (out, Ok tt) /\
  ~ fequiv (n_weight n) (n_weight m).
Proof.
  exists (Density d (BoolC true) (TimesN [PlusN [Sym "x" TReal; Sym "y" TReal]; Sym "z" TReal]) []),
    (Density d (BoolC true) (PlusN [Sym "x" TReal; TimesN [Sym "y" TReal; Sym "z" TReal]]) []).
  eexists. split; [done|]. split; [done|]. split; [reflexivity|]. split; [reflexivity|].
  intros H. specialize (H (Env (fun _ => true) (fun v => if decide (v = "z") then qz 2 else 1%Qc))).
  vm_compute in H. discriminate.
Qed.
Print Assumptions C71_print_weight_refuted.

(** The sections of the output, for every density that can be printed. *)
Theorem C71_print_sections fmt show_domain n s w ts :
  pretty_print fmt (n_support n) = Ok s -> pretty_print fmt (n_weight n) = Ok w ->
  Forall2 (fun q t => pretty_print fmt q = Ok t) (n_queries n) ts ->
  exists rest, task_print fmt show_domain n =
    (["-- Domain ---"; show_domain (n_dom n); "--- Support ---"; s; "--- Weight ---"; w] ++ rest, Ok tt) /\
    (n_queries n = [] -> rest = []) /\
    (n_queries n <> [] -> rest = "--- Queries ---" :: map (fun t => String "009"%char " " +:+ t) ts).
Proof.
  intros S W Q. eexists. split; [by apply task_print_ok|]. destruct Q; done.
Qed.
Print Assumptions C71_print_sections.

(** It succeeds exactly when every formula can be printed; none is left out silently. *)
Theorem C71_print_succeeds fmt show_domain n :
  (exists out, task_print fmt show_domain n = (out, Ok tt)) <->
  Forall (fun f => exists t, pretty_print fmt f = Ok t) (n_support n :: n_weight n :: n_queries n).
Proof.
  split; [intros [out H]; by eapply task_print_only|].
  intros H. inversion H as [|? ? [s S] H1]; subst. inversion H1 as [|? ? [w W] H2]; subst.
  assert (exists ts, Forall2 (fun q t => pretty_print fmt q = Ok t) (n_queries n) ts) as [ts T].
  { clear -H2. induction H2 as [|q l [t Ht] _ [ts IH]]; [by exists []|].
    exists (t :: ts). by constructor. }
  eexists. by apply task_print_ok.
Qed.
Print Assumptions C71_print_succeeds.

(** * Concrete cases *)

Lemma ex_small_exact : exact_density ex_to_float ex_small.
Proof.
  split; [|split_and!; cbn; try done; by constructor].
  intros v t H. cbn in H. rewrite !elem_of_cons, elem_of_nil in H.
  destruct H as [[= -> ->]|[[= -> ->]|[]]]; auto.
Qed.

Example C71_convert_example : exists fs' m,
  task_convert ex_to_float ex_show (fun _ => "") (fun _ => true) "d.json" None ex_small ex_disk = (fs', Ok tt) /\
  den_from_file ex_read "d.json.converted.json" fs' = Ok m /\ same_density m ex_small /\
  same_but ["d.json.converted.json"] ex_disk fs'.
Proof. by apply C71_convert_partial; [exact ex_float_ok|exact ex_small_exact|right|]. Qed.

(** The hypotheses of [C71_normalize_partial] are met. *)
Lemma ex_fresh_ok : fresh_ok (fun _ => true) ex_fresh ex_disk.
Proof.
  intros l fs' L S. split; [|done]. unfold ex_fresh.
  destruct (fs' "t1") eqn:E1; [|done]. destruct (fs' "t2") eqn:E2; [|done].
  destruct (decide ("t3" ∈ l)) as [H3|N3]; [|by rewrite (S _ N3)].
  destruct (decide ("t1" ∈ l)) as [H1|N1]; [|by rewrite (S _ N1) in E1].
  destruct (decide ("t2" ∈ l)) as [H2|N2]; [|by rewrite (S _ N2) in E2].
  assert (["t1"; "t2"; "t3"] ⊆+ l) as U%submseteq_length; [|cbn in U; lia].
  apply NoDup_submseteq; [repeat constructor; rewrite ?elem_of_cons, elem_of_nil; intuition congruence|].
  intros x. rewrite !elem_of_cons, elem_of_nil. intros [->|[->|[->|[]]]]; done.
Qed.

Example C71_hypotheses_example :
  float_ok ex_read ex_to_float ex_show /\ fresh_ok (fun _ => true) ex_fresh ex_disk /\
  exact_domain (n_dom ex_small) /\ exact_formula ex_to_float (n_support ex_small) /\
  exact_formula ex_to_float (n_weight ex_small) /\ typeof (n_support ex_small) = Some TBool.
Proof.
  destruct ex_small_exact as (D & S & W & _).
  split_and!; [exact ex_float_ok|exact ex_fresh_ok|exact D|exact S|exact W|done].
Qed.

Example C71_normalize_example : exists fs',
  task_normalize ex_read ex_to_float ex_show (fun _ => "") (fun _ => "") (fun _ => true) ex_fresh ex_java "xadd.jar" true
    ex_small "new.json" "out.xadd" false ex_disk = (fs', Ok tt) /\
  fs' "t1" = None /\ fs' "t2" = None /\ fs' "t3" = None /\ fs' "new.json" = ex_disk "new.json".
Proof. eexists. split; [vm_compute; reflexivity|]. split_and!; reflexivity. Qed.

Example C71_plot_example : exists c,
  task_plot ex_read "d.json" ex_small (Some "*") (Some "new.json") None None ex_disk = Ok c /\
  pl_output c = Some "d.json.png" /\
  eval (Env (fun _ => true) (fun _ => 0%Qc)) (pl_formula c) = Some (VB false).
Proof. eexists. split; [vm_compute; reflexivity|]. split; reflexivity. Qed.

Example C71_print_example : task_print (fun _ => "") (fun _ => "D") (Density (n_dom ex_small) (Sym "a" TBool) (Sym "x" TReal) [Sym "a" TBool]) =
  (["-- Domain ---"; "D"; "--- Support ---"; "a"; "--- Weight ---"; "x"; "--- Queries ---"; String "009"%char " a"], Ok tt).
Proof. vm_compute. reflexivity. Qed.

Example C71_print_hypotheses : float_format ex_fmt (fun _ => True) /\ readable_density ex_fmt (fun _ => True) ex_small.
Proof.
  split; [exact ex_format|]. split; [by apply rd_sym|]. split; [by eexists|constructor].
Qed.

Example C71_cleanup_example p : exists fs' r,
  normalize ex_read ex_to_float ex_show (fun _ => "") (fun _ => "") (fun _ => true) ex_fresh ex_java "xadd.jar" true
    (n_dom ex_small) (n_support ex_small) (n_weight ex_small) (Sym "a" TBool) true true ex_disk = (fs', r) /\
  fs' p = ex_disk p.
Proof.
  destruct (normalize _ _ _ _ _ _ _ _ _ _ _ _ _ _ _ _ _) as [fs' r] eqn:E. exists fs', r. split; [done|].
  eapply C71_cleanup_partial; cycle 3; [exact E|exact ex_fresh_ok|vm_compute; reflexivity|].
  intros f f2 flag f3 fs1 q Hq. unfold ex_java. destruct (decide (flag = "-p")); [|done].
  apply dwrite_ne. intros ->. apply Hq. rewrite !elem_of_cons. auto.
Qed.
