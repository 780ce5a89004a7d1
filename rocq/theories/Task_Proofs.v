(** Proofs about Task_Model.v. *)

From Verif Require Import Base Smt Parse_Model Parse_Spec Parse_Props Domain_Model Domain_Spec
  Domain_Props Lit_Proofs Print_Model Task_Model Task_Spec.

Lemma dwrite_eq fs p c : dwrite fs p c p = Some c.
Proof. unfold dwrite. by rewrite decide_True. Qed.
Lemma dwrite_ne fs p c q : q <> p -> dwrite fs p c q = fs q.
Proof. intros. unfold dwrite. by rewrite decide_False. Qed.
Lemma dremove_eq fs p : dremove fs p p = None.
Proof. unfold dremove. by rewrite decide_True. Qed.
Lemma dremove_ne fs p q : q <> p -> dremove fs p q = fs q.
Proof. intros. unfold dremove. by rewrite decide_False. Qed.

Section proofs.
  Variable read : string -> option Qc.
  Variable to_float : Qc -> option Qc.
  Variable show : Qc -> string.
  Variable show_int : Z -> string.
  Variable can_open : string -> bool.
  Notation to_file := (den_to_file to_float show show_int can_open).

  Lemma to_file_exact n p fs : float_ok read to_float show -> exact_density to_float n ->
    can_open p = true ->
    exists s fs', to_file n p fs = (fs', Ok tt) /\ fs' p = Some (CState s) /\
      (exists m, den_from_state read s = Ok m /\ same_density m n) /\ same_but [p] fs fs'.
  Proof.
    intros F (D & S & W & Q) C.
    destruct (C14_density_roundtrip_partial read to_float show show_int n F D) as (s & m & G & R & E).
    { intros f [->|[->|Hf]]; [exact S|exact W|]. rewrite Forall_forall in Q. by apply Q. }
    exists s. unfold den_to_file. rewrite C, G. eexists. split; [done|].
    split; [apply dwrite_eq|]. split; [by exists m|].
    intros q Hq. rewrite !dwrite_ne; [done|intros ->; apply Hq; left..].
  Qed.

  Lemma to_file_frame n p fs fs' r : to_file n p fs = (fs', r) -> same_but [p] fs fs'.
  Proof.
    unfold den_to_file. intros H q Hq. assert (q <> p) by (intros ->; apply Hq; left).
    destruct (can_open p); [|by injection H as <- <-].
    destruct (den_get_state _ _ _ n); injection H as <- <-; by rewrite !dwrite_ne.
  Qed.

  Lemma to_file_ok n p fs fs' : to_file n p fs = (fs', Ok tt) ->
    exists s, den_get_state to_float show show_int n = Ok s /\ fs' p = Some (CState s).
  Proof.
    unfold den_to_file. destruct (can_open p); [|done].
    destruct (den_get_state _ _ _ n) as [s|]; [|done]. intros [= <-].
    exists s. split; [done|]. apply dwrite_eq.
  Qed.

  Lemma to_file_err n p fs fs' e : to_file n p fs = (fs', Err e) -> can_open p = true ->
    fs' p = Some CEmpty /\ den_get_state to_float show show_int n = Err e.
  Proof.
    unfold den_to_file. intros H C. rewrite C in H.
    destruct (den_get_state _ _ _ n) as [s|]; [done|]. injection H as <- <-.
    split; [apply dwrite_eq|done].
  Qed.
End proofs.

Lemma exact_true to_float : exact_formula to_float (BoolC true).
Proof. done. Qed.

Lemma exact_one read to_float show : float_ok read to_float show -> exact_formula to_float (RealC 1).
Proof.
  intros F. pose proof (fo_one _ _ _ F) as H. unfold exact_formula. cbn. rewrite H.
  split; [done|]. split; [done|]. split; [done|]. by apply bool_decide_eq_true.
Qed.

Lemma exact_and to_float f g : exact_formula to_float f -> exact_formula to_float g ->
  typeof f = Some TBool -> typeof g = Some TBool -> exact_formula to_float (AndN [f; g]).
Proof.
  intros (A & B & _ & C) (A' & B' & _ & C') T T'. unfold exact_formula. cbn.
  rewrite A, A', B, B', C, C', T, T'. cbn. done.
Qed.

Lemma difference_value e f g b c : eval e f = Some (VB b) -> eval e g = Some (VB c) ->
  eval e (mkOr [mkAnd [f; mkNot g]; mkAnd [mkNot f; g]]) = Some (VB (xorb b c)).
Proof.
  intros F G. pose proof (eval_mkNot_eq e f b F) as NF. pose proof (eval_mkNot_eq e g c G) as NG.
  cbn [eval] in NF, NG. rewrite F in NF. rewrite G in NG. cbn in NF, NG.
  cbn. rewrite F, G, NF, NG. cbn. by destruct b, c.
Qed.

Lemma say_queries fmt pre qs ts out : Forall2 (fun q t => pretty_print fmt q = Ok t) qs ts ->
  foldl (fun out q => say out pre (pretty_print fmt q)) (out, Ok tt) qs =
    (out ++ map (fun t => pre +:+ t) ts, Ok tt).
Proof.
  intros H. revert out. induction H as [|q t qs ts Hq _ IH]; intros out; cbn; [by rewrite app_nil_r|].
  rewrite Hq, IH. by rewrite <- app_assoc.
Qed.

Lemma task_print_ok fmt show_domain n s w ts : pretty_print fmt (n_support n) = Ok s ->
  pretty_print fmt (n_weight n) = Ok w -> Forall2 (fun q t => pretty_print fmt q = Ok t) (n_queries n) ts ->
  task_print fmt show_domain n =
    (["-- Domain ---"; show_domain (n_dom n); "--- Support ---"; s; "--- Weight ---"; w] ++
     (if ts then [] else "--- Queries ---" :: map (fun t => String "009"%char " " +:+ t) ts), Ok tt).
Proof.
  intros S W Q. unfold task_print. rewrite S, W. cbn [say]. rewrite !app_nil_l.
  destruct Q as [|q t qs ts Hq HQ]; [done|].
  cbn [length Nat.ltb Nat.leb]. rewrite (say_queries fmt _ (q :: qs) (t :: ts)) by by constructor.
  by rewrite <- !app_assoc.
Qed.

Lemma tab_inj t t' : String "009"%char " " +:+ t = String "009"%char " " +:+ t' -> t = t'.
Proof. by intros [= ->]. Qed.

Lemma say_ok before pre text out : say before pre text = (out, Ok tt) ->
  (exists out', before = (out', Ok tt)) /\ exists t, text = Ok t.
Proof. destruct before as [o [[]|e]]; cbn; [|done]. destruct text; [|done]. eauto. Qed.

Lemma says_ok fmt pre qs before out :
  foldl (fun out q => say out pre (pretty_print fmt q)) before qs = (out, Ok tt) ->
  (exists out', before = (out', Ok tt)) /\ Forall (fun q => exists t, pretty_print fmt q = Ok t) qs.
Proof.
  revert before. induction qs as [|q qs IH]; intros before H; [split; [by exists out|constructor]|].
  destruct (IH _ H) as [[o Ho] F]. apply say_ok in Ho as [B T]. split; [done|by constructor].
Qed.

Lemma task_print_only fmt show_domain n out : task_print fmt show_domain n = (out, Ok tt) ->
  Forall (fun f => exists t, pretty_print fmt f = Ok t) (n_support n :: n_weight n :: n_queries n).
Proof.
  unfold task_print. intros H.
  assert (exists out', say (say (say (say (say (say ([], Ok tt) "" (Ok "-- Domain ---")) "" (Ok (show_domain (n_dom n))))
    "" (Ok "--- Support ---")) "" (pretty_print fmt (n_support n))) "" (Ok "--- Weight ---")) ""
    (pretty_print fmt (n_weight n)) = (out', Ok tt) /\
    Forall (fun f => exists t, pretty_print fmt f = Ok t) (n_queries n)) as (o & E & Q).
  { destruct (0 <? length (n_queries n)) eqn:L.
    - apply says_ok in H as [[o Ho] F]. apply say_ok in Ho as [[o' Ho'] _]. by exists o'.
    - exists out. split; [exact H|]. by destruct (n_queries n). }
  apply say_ok in E as [[o1 E] W]. apply say_ok in E as [[o2 E] _]. apply say_ok in E as [_ S].
  by repeat constructor.
Qed.

(** A [with] statement undoes its own file. *)
Lemma with_temp_frame {A} fresh cb (body : string -> disk -> disk * Res A) fs fs' r l :
  fs (fresh fs) = None ->
  match cb with
  | Some k => exists fs2, k (fresh fs) (dwrite fs (fresh fs) CEmpty) = (fs2, Ok tt) /\
                same_but [fresh fs] (dwrite fs (fresh fs) CEmpty) fs2
  | None => True
  end ->
  (forall fs2 fs3 r', same_but [fresh fs] fs fs2 -> body (fresh fs) fs2 = (fs3, r') ->
    same_but (fresh fs :: l) fs2 fs3) ->
  with_temp fresh cb body fs = (fs', r) -> same_but l fs fs'.
Proof.
  intros F C B H. unfold with_temp in H.
  assert (exists fs2, match cb with Some k => k (fresh fs) (dwrite fs (fresh fs) CEmpty)
      | None => (dwrite fs (fresh fs) CEmpty, Ok tt) end = (fs2, Ok tt) /\ same_but [fresh fs] fs fs2) as (fs2 & E & S).
  { destruct cb as [k|].
    - destruct C as (fs2 & E & S). exists fs2. split; [done|]. intros q Hq. rewrite (S q Hq).
      apply dwrite_ne. intros ->. apply Hq. left.
    - eexists. split; [done|]. intros q Hq. apply dwrite_ne. intros ->. apply Hq. left. }
  rewrite E in H. destruct (body (fresh fs) fs2) as [fs3 r'] eqn:Eb.
  injection H as <- <-. intros q Hq. destruct (decide (q = fresh fs)) as [->|N].
  - by rewrite dremove_eq, F.
  - rewrite dremove_ne by done. rewrite (B fs2 fs3 r' S Eb q) by (intros [?|?]%elem_of_cons; done).
    apply S. by intros ->%elem_of_list_singleton.
Qed.
