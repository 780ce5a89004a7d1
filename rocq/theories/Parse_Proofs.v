From Verif Require Import Base Smt Parse_Model Parse_Spec.

(** * Tokenizer *)

Lemma append_assoc (a b c : string) : (a +:+ b) +:+ c = a +:+ (b +:+ c).
Proof. induction a as [|x a IH]; simpl; [done|]. by rewrite IH. Qed.

Lemma append_nil_r (a : string) : a +:+ "" = a.
Proof. induction a as [|x a IH]; simpl; [done|]. by rewrite IH. Qed.

Lemma is_ws_whitespace c : is_ws c = whitespace c.
Proof. by destruct c as [[] [] [] [] [] [] [] []]. Qed.

Lemma ws_not_par c : whitespace c = true -> is_par c = false.
Proof.
  destruct (is_par c) eqn:E; [|done]. intros H. exfalso. revert E H.
  unfold is_par. rewrite orb_true_iff, !bool_decide_eq_true.
  intros [-> | ->]; by vm_compute.
Qed.

Lemma split_ws w s :
  all_chars whitespace w = true -> split_go "" (pad (w +:+ s)) = split_go "" (pad s).
Proof.
  induction w as [|c w IH]; simpl; [done|].
  rewrite andb_true_iff. intros [Hc Hw].
  rewrite (ws_not_par _ Hc). simpl. rewrite is_ws_whitespace, Hc. simpl. auto.
Qed.

Lemma split_word a cur s :
  all_chars (fun c => negb (whitespace c) && negb (is_par c)) a = true ->
  split_go cur (pad (a +:+ s)) = split_go (cur +:+ a) (pad s).
Proof.
  revert cur. induction a as [|c a IH]; intros cur; simpl.
  - by rewrite append_nil_r.
  - rewrite !andb_true_iff, !negb_true_iff. intros [[H1 H2] H3].
    rewrite H2. simpl. rewrite is_ws_whitespace, H1. rewrite (IH _ H3).
    by rewrite append_assoc.
Qed.

Lemma split_delim cur s :
  cur <> "" -> starts_delim s = true ->
  split_go cur (pad s) = cur :: split_go "" (pad s).
Proof.
  intros Hcur Hs. destruct s as [|c s]; simpl in *.
  - by rewrite decide_False.
  - destruct (whitespace c) eqn:Hw.
    + rewrite (ws_not_par _ Hw). simpl. rewrite is_ws_whitespace, Hw. rewrite decide_False by done.
      done.
    + simpl in Hs. rewrite Hs. simpl. rewrite decide_False by done. done.
Qed.

Lemma par_cases p : is_par p = true -> p = lpar \/ p = rpar.
Proof. unfold is_par. rewrite orb_true_iff, !bool_decide_eq_true. tauto. Qed.

Lemma spaced_tokenize ts s : spaced ts s -> tokenize s = ts.
Proof.
  unfold tokenize. induction 1 as [w Hw|w p ts s Hw Hp H IH|w a ts s Hw Ha Hs H IH].
  - rewrite <- (append_nil_r w), split_ws; done.
  - rewrite split_ws by done. simpl. rewrite Hp. simpl.
    destruct (par_cases _ Hp) as [-> | ->]; simpl; by rewrite IH.
  - rewrite split_ws by done. unfold clean in Ha.
    apply andb_true_iff in Ha as [Ha1 Ha2]. rewrite split_word by done. simpl.
    rewrite split_delim; [by rewrite IH| |done].
    apply negb_true_iff, bool_decide_eq_false in Ha1. done.
Qed.

(** * Stack machine *)

Lemma clean_not_par w : clean w = true -> w <> "(" /\ w <> ")".
Proof. intros H; split; intros ->; by vm_compute in H. Qed.

Section tree_ind.
  Variable P : tree -> Prop.
  Hypothesis HL : forall w, P (Leaf w).
  Hypothesis HO : forall op args, Forall P args -> P (Op op args).
  Fixpoint tree_ind' (t : tree) : P t :=
    match t with
    | Leaf w => HL w
    | Op op args =>
        HO op args ((fix all l : Forall P l :=
          match l with
          | [] => Forall_nil_2 P
          | x :: xs => Forall_cons_2 P x xs (tree_ind' x) (all xs)
          end) args)
    end.
End tree_ind.

Lemma machine_tree ops t nm ch rest root ts :
  tree_ok ops t = true ->
  machine (Some ops) ((Some nm, ch) :: rest) root (words t ++ ts) =
  machine (Some ops) ((Some nm, ch ++ [as_node t]) :: rest) root ts.
Proof.
  revert nm ch rest ts. induction t as [w|op args IH] using tree_ind'; intros nm ch rest ts Hok.
  - simpl in *. destruct (clean_not_par _ Hok). rewrite !decide_False by done. done.
  - simpl in Hok. rewrite !andb_true_iff in Hok. destruct Hok as [[Hc Hin] Hargs].
    apply bool_decide_eq_true in Hin.
    destruct (clean_not_par _ Hc).
    cbn [words app machine]. rewrite decide_True by done.
    rewrite !decide_False by done. rewrite decide_True by done.
    rewrite <- app_assoc.
    assert (forall ch', machine (Some ops) ((Some op, ch') :: (Some nm, ch) :: rest) root
              (concat (map words args) ++ [")"] ++ ts) =
            machine (Some ops) ((Some nm, ch ++ [Node (Some op) (ch' ++ map as_node args)]) :: rest)
              root ts) as Hloop.
    { clear Hc Hin. induction args as [|a args IHa]; intros ch'; cbn [map concat app].
      - simpl. by rewrite app_nil_r.
      - rewrite <- app_assoc. apply andb_true_iff in Hargs as [Ha Hargs].
        inversion IH as [|? ? IH1 IH2]; subst.
        rewrite (IH1 op ch' ((Some nm, ch) :: rest) _ Ha).
        rewrite IHa by done. by rewrite <- app_assoc. }
    apply Hloop.
Qed.

Lemma machine_root ops op args root ts :
  tree_ok ops (Op op args) = true ->
  machine (Some ops) [] root (words (Op op args) ++ ts) =
  machine (Some ops) [] (Some (as_node (Op op args))) ts.
Proof.
  intros Hok. simpl in Hok. rewrite !andb_true_iff in Hok. destruct Hok as [[Hc Hin] Hargs].
  apply bool_decide_eq_true in Hin. destruct (clean_not_par _ Hc).
  cbn [words app machine]. rewrite decide_True by done.
  rewrite !decide_False by done. rewrite decide_True by done. rewrite <- app_assoc.
  assert (forall ch', machine (Some ops) [(Some op, ch')] root
            (concat (map words args) ++ [")"] ++ ts) =
          machine (Some ops) [] (Some (Node (Some op) (ch' ++ map as_node args))) ts) as Hloop.
  { induction args as [|a args IHa]; intros ch'; cbn [map concat app].
    - simpl. by rewrite app_nil_r.
    - rewrite <- app_assoc. apply andb_true_iff in Hargs as [Ha Hargs].
      rewrite machine_tree by done. rewrite IHa by done. by rewrite <- app_assoc. }
  apply Hloop.
Qed.

Lemma parse_tree_text ops op args s :
  tree_ok ops (Op op args) = true -> spaced (words (Op op args)) s ->
  string_to_ast (Some ops) s = Ok (Some (as_node (Op op args))).
Proof.
  intros Hok Hs. unfold string_to_ast, tokenized_string_to_ast.
  rewrite (spaced_tokenize _ _ Hs). rewrite <- (app_nil_r (words _)).
  rewrite machine_root by done. done.
Qed.

(** ** Rejection *)

Lemma depth_cons w ws :
  depth (w :: ws) =
  ((if decide (w = "(") then 1 else if decide (w = ")") then -1 else 0) + depth ws)%Z.
Proof. unfold depth; simpl. repeat destruct (decide _); lia. Qed.

(** Either the machine fails on [pre] whatever follows, or it reaches a state
    whose stack height is the initial one plus the depth of [pre]. *)
Lemma machine_app ops pre stack root :
  (exists e, forall post, machine ops stack root (pre ++ post) = Err e) \/
  (exists stack' root',
     Z.of_nat (length stack') = (Z.of_nat (length stack) + depth pre)%Z /\
     forall post, machine ops stack root (pre ++ post) = machine ops stack' root' post).
Proof.
  revert stack root. induction pre as [|t pre IH]; intros stack root.
  - right. exists stack, root. split; [unfold depth; simpl; lia|done].
  - cbn [app machine]. rewrite depth_cons.
    destruct (decide (t = "(")) as [->|N1].
    { destruct (IH ((None, []) :: stack) root) as [[e He]|(st & r & Hd & Hm)].
      - left. eauto.
      - right. exists st, r. split; [simpl length in Hd; lia|done]. }
    destruct (decide (t = ")")) as [->|N2].
    { destruct stack as [|[nm ch] [|[pn pc] rest]].
      - left. eauto.
      - destruct (IH [] (Some (Node nm ch))) as [[e He]|(st & r & Hd & Hm)].
        + left; eauto.
        + right. exists st, r. split; [simpl length in *; lia|done].
      - destruct (IH ((pn, pc ++ [Node nm ch]) :: rest) root) as [[e He]|(st & r & Hd & Hm)].
        + left; eauto.
        + right. exists st, r. split; [simpl length in *; lia|done]. }
    destruct stack as [|[[nm|] ch] rest].
    + left; eauto.
    + destruct (IH ((Some nm, ch ++ [Node (Some t) []]) :: rest) root)
        as [[e He]|(st & r & Hd & Hm)].
      * left; eauto.
      * right. exists st, r. split; [simpl length in *; lia|done].
    + assert (H : forall root, (exists e, forall post, machine ops ((Some t, ch) :: rest) root (pre ++ post) = Err e)
               \/ (exists stack' root',
     Z.of_nat (length stack') = (Z.of_nat (length (@cons frame (None, ch) rest)) + (0 + depth pre))%Z /\
     forall post, machine ops ((Some t, ch) :: rest) root (pre ++ post) = machine ops stack' root' post)).
      { intros r0. destruct (IH ((Some t, ch) :: rest) r0) as [[e He]|(st & r & Hd & Hm)].
        - left; eauto.
        - right. exists st, r. split; [cbn [length] in *; lia|done]. }
      destruct ops as [ops|]; [|apply H].
      destruct (decide (t ∈ ops)); [apply H|]. left; eauto.
Qed.

(** A closing parenthesis without an open one is rejected. *)
Lemma machine_surplus ops pre post :
  depth pre = 0%Z ->
  exists e, tokenized_string_to_ast ops (pre ++ ")" :: post) = Err e.
Proof.
  intros Hd. unfold tokenized_string_to_ast.
  destruct (machine_app ops pre [] None) as [[e He]|(st & r & Hl & Hm)].
  - eauto.
  - rewrite Hm. rewrite Hd in Hl. simpl in Hl. destruct st; [|simpl in Hl; lia].
    simpl. eauto.
Qed.

(** A word outside all parentheses is rejected. *)
Lemma machine_bare ops pre w post :
  depth pre = 0%Z -> w <> "(" ->
  exists e, tokenized_string_to_ast ops (pre ++ w :: post) = Err e.
Proof.
  intros Hd Hw. destruct (decide (w = ")")) as [->|Hw2]; [by apply machine_surplus|].
  unfold tokenized_string_to_ast.
  destruct (machine_app ops pre [] None) as [[e He]|(st & r & Hl & Hm)].
  - eauto.
  - rewrite Hm. rewrite Hd in Hl. simpl in Hl. destruct st; [|simpl in Hl; lia].
    cbn [machine]. rewrite !decide_False by done. eauto.
Qed.

(** A word that is not an operator directly after "(" is rejected. *)
Lemma machine_unknown ops pre w post :
  w <> "(" -> w <> ")" -> w ∉ ops ->
  exists e, tokenized_string_to_ast (Some ops) (pre ++ "(" :: w :: post) = Err e.
Proof.
  intros Hw1 Hw2 Hw3. unfold tokenized_string_to_ast.
  destruct (machine_app (Some ops) pre [] None) as [[e He]|(st & r & Hl & Hm)].
  - eauto.
  - rewrite Hm. cbn [machine]. rewrite decide_True by done.
    rewrite !decide_False by done. eauto.
Qed.

(** * Round trip of formulas *)

Section RoundTrip.
  Variable read : string -> option Qc.
  Variable to_float : Qc -> option Qc.
  Variable show : Qc -> string.
  Variable show_int : Z -> string.
  Hypothesis Hfl : float_ok read to_float show.

  Notation print := (smt_to_nested to_float show show_int).
  Notation storable := (storable to_float).
  Notation stored := (stored to_float).

  Definition rnd (q : Qc) : Qc := default q (to_float q).

  (** The tree that is written for a formula. *)
  Definition tvar (t : ty) (n : string) : tree :=
    Op "var" [Leaf (format_type t); Leaf n].

  Fixpoint ptree (f : fm) : tree :=
    let pn (a : fm) : tree :=
      match a with NotN c => ptree c | _ => Op "~" [ptree a] end in
    match f with
    | AndN l => Op "&" (map ptree l)
    | OrN l => Op "|" (map ptree l)
    | ImpN a b => Op "|" [pn a; ptree b]
    | IffN a b => Op "&" [Op "|" [pn a; ptree b]; Op "|" [pn b; ptree a]]
    | NotN a => Op "~" [ptree a]
    | TimesN l => Op "*" (map ptree l)
    | PlusN l => Op "+" (map ptree l)
    | MinusN a b => Op "-" [ptree a; ptree b]
    | ExpN a => Op "exp" [ptree a]
    | IteN c t e => Op "ite" [ptree c; ptree t; ptree e]
    | PowN a b =>
        match const_val b with
        | Some q => if decide (q = 1%Qc) then ptree a else Op "^" [ptree a; ptree b]
        | None => Op "^" [ptree a; ptree b]
        end
    | LeN a b => Op "<=" [ptree a; ptree b]
    | LtN a b => Op "<" [ptree a; ptree b]
    | EqN a b => Op "=" [ptree a; ptree b]
    | Sym n t => tvar t n
    | BoolC b => Op "const" [Leaf "bool"; Leaf (if b then "True" else "False")]
    | RealC q => Op "const" [Leaf "real"; Leaf (show (rnd q))]
    | IntC z => Op "const" [Leaf "int"; Leaf (show_int z)]
    | ToRealN a => Op "toreal" [ptree a]
    end.

  (** The formula that is read back. *)
  Fixpoint reparse (f : fm) : fm :=
    let rn (a : fm) : fm :=
      match a with NotN c => reparse c | _ => mkNot (reparse a) end in
    match f with
    | AndN l => mkAnd (map reparse l)
    | OrN l => mkOr (map reparse l)
    | ImpN a b => OrN [rn a; reparse b]
    | IffN a b => AndN [OrN [rn a; reparse b]; OrN [rn b; reparse a]]
    | NotN a => mkNot (reparse a)
    | TimesN l => TimesN (map reparse l)
    | PlusN l => PlusN (map reparse l)
    | MinusN a b => MinusN (reparse a) (reparse b)
    | ExpN a => ExpN (reparse a)
    | IteN c t e => IteN (reparse c) (reparse t) (reparse e)
    | PowN a b =>
        match const_val b with
        | Some q => if decide (q = 1%Qc) then reparse a else PowN (reparse a) (reparse b)
        | None => PowN (reparse a) (reparse b)
        end
    | LeN a b => LeN (reparse a) (reparse b)
    | LtN a b => LtN (reparse a) (reparse b)
    | EqN a b => EqN (reparse a) (reparse b)
    | Sym n t => Sym n t
    | BoolC b => BoolC true
    | RealC q => RealC (rnd q)
    | IntC z => IntC z
    | ToRealN a => ToRealN (reparse a)
    end.

  (** ** The printed text *)

  (** [s] is a text of [t] whatever follows (after a delimiter). *)
  Definition text_of (t : tree) (s : string) : Prop :=
    forall ts rest, starts_delim rest = true -> spaced ts rest ->
      spaced (words t ++ ts) (s +:+ rest).

  Lemma spaced_ws w ts s :
    all_chars whitespace w = true -> spaced ts s -> spaced ts (w +:+ s).
  Proof.
    assert (Hall : forall w w', all_chars whitespace w = true -> all_chars whitespace w' = true ->
              all_chars whitespace (w +:+ w') = true).
    { clear w. induction w as [|c w IH]; simpl; [done|]. intros w'.
      rewrite !andb_true_iff. naive_solver. }
    intros Hw H. destruct H as [w' H'|w' p ts s H1 H2 H3|w' a ts s H1 H2 H3 H4].
    - constructor. auto.
    - rewrite <- append_assoc. constructor; auto.
    - rewrite <- append_assoc. constructor; auto.
  Qed.

  Lemma text_leaf w : clean w = true -> text_of (Leaf w) w.
  Proof.
    intros Hw ts rest Hd Hs. simpl.
    change (w +:+ rest) with ("" +:+ w +:+ rest). by constructor.
  Qed.

  Lemma text_join args ss ts rest :
    Forall2 text_of args ss -> starts_delim rest = true -> spaced ts rest ->
    spaced (concat (map words args) ++ ts) (join_sp ss +:+ rest).
  Proof.
    intros H. induction H as [|t s args ss Hts H IH]; intros Hd Hs; [done|].
    cbn [map concat]. rewrite <- app_assoc.
    destruct ss as [|s' ss'].
    - inversion H; subst. cbn [join_sp map concat app]. by apply Hts.
    - change (join_sp (s :: s' :: ss')) with (s +:+ " " +:+ join_sp (s' :: ss')).
      rewrite append_assoc. apply Hts; [done|].
      rewrite append_assoc. apply spaced_ws; [done|]. by apply IH.
  Qed.

  Lemma text_paren op args ss :
    clean op = true -> Forall2 text_of args ss -> text_of (Op op args) (paren op ss).
  Proof.
    intros Hop H ts rest Hd Hs. unfold paren. cbn [words app].
    change (("(" +:+ op +:+ " " +:+ join_sp ss +:+ ")") +:+ rest)
      with ("" +:+ "(" +:+ ((op +:+ " " +:+ join_sp ss +:+ ")") +:+ rest)).
    constructor; [done|done|].
    rewrite !append_assoc.
    change (op +:+ " " +:+ join_sp ss +:+ ")" +:+ rest)
      with ("" +:+ op +:+ (" " +:+ (join_sp ss +:+ (")" +:+ rest)))).
    constructor; [done|done|done|].
    apply spaced_ws; [done|]. rewrite <- app_assoc.
    apply text_join; [done|done|].
    change (")" +:+ rest) with ("" +:+ ")" +:+ rest). simpl app.
    by constructor.
  Qed.

  Lemma print_text f :
    storable f = true -> exists s, print f = Ok s /\ text_of (ptree f) s.
  Proof.
    assert (Hlist : forall l,
      Forall (fun f => storable f = true -> exists s, print f = Ok s /\ text_of (ptree f) s) l ->
      forallb storable l = true ->
      exists ss, rmapM print l = Ok ss /\ Forall2 text_of (map ptree l) ss).
    { induction 1 as [|g l Hg Hl IHl]; simpl.
      - intros _. exists []. by repeat constructor.
      - rewrite andb_true_iff. intros [H1 H2].
        destruct (Hg H1) as (s & -> & Hs). destruct (IHl H2) as (ss & Hss & Hss2).
        exists (s :: ss). simpl. rewrite Hss. by repeat constructor. }
    assert (Hpn : forall a, (storable a = true -> exists s, print a = Ok s /\ text_of (ptree a) s) ->
      (forall c, a = NotN c -> storable c = true -> exists s, print c = Ok s /\ text_of (ptree c) s) ->
      storable a = true ->
      exists s, (match a with
                 | NotN c => print c
                 | _ => let! s := print a in Ok (paren "~" [s])
                 end) = Ok s /\
                text_of (match a with NotN c => ptree c | _ => Op "~" [ptree a] end) s).
    { intros a H1 H2 H3. destruct (H1 H3) as (s & Hs & Ht).
      assert (exists s, (let! s := print a in Ok (paren "~" [s])) = Ok s /\
                text_of (Op "~" [ptree a]) s) as Hdef.
      { exists (paren "~" [s]). rewrite Hs. split; [done|].
        apply text_paren; [done|by repeat constructor]. }
      destruct a; try exact Hdef. apply (H2 _ eq_refl). exact H3. }
    revert f.
    assert (Hboth : forall f,
      (storable f = true -> exists s, print f = Ok s /\ text_of (ptree f) s) /\
      (forall c, f = NotN c -> storable c = true -> exists s, print c = Ok s /\ text_of (ptree c) s)).
    2:{ intros f. apply Hboth. }
    induction f as [n t|b|q|z|l IH|l IH|f IH|f g IHf IHg|f g IHf IHg|c t e IHc IHt IHe|l IH
                   |f g IHf IHg|l IH|f g IHf IHg|f g IHf IHg|f g IHf IHg|f g IHf IHg|f IH|f IH]
      using fm_ind'; split; try (intros; discriminate).
    - cbn [Parse_Spec.storable]. rewrite andb_true_iff, negb_true_iff, bool_decide_eq_false.
      intros [Ht Hn]. eexists. split; [reflexivity|].
      cut (text_of (ptree (Sym n t)) (paren "var" [format_type t; n])).
      { unfold paren, join_sp. by rewrite !append_assoc. }
      apply text_paren; [done|].
      constructor; [apply text_leaf; by destruct t|]. constructor; [by apply text_leaf|constructor].
    - intros _. eexists. split; [reflexivity|].
      cut (text_of (ptree (BoolC b)) (paren "const" ["bool"; if b then "True" else "False"])).
      { by destruct b. }
      apply text_paren; [done|]. constructor; [by apply text_leaf|].
      constructor; [apply text_leaf; by destruct b|constructor].
    - cbn [Parse_Spec.storable]. destruct (to_float q) as [r|] eqn:Hq; [|done]. intros _.
      cbn [smt_to_nested]. rewrite Hq. eexists. split; [reflexivity|].
      cut (text_of (ptree (RealC q)) (paren "const" ["real"; show r])).
      { unfold paren, join_sp. by rewrite !append_assoc. }
      apply text_paren; [done|]. constructor; [by apply text_leaf|].
      unfold rnd. rewrite Hq. cbn [default].
      constructor; [|constructor]. apply text_leaf. eapply fo_show; [done|]. by eapply fo_idem.
    - cbn [Parse_Spec.storable]. intros H.
      destruct (Hlist l) as (ss & Hss & Ht); [eapply Forall_impl; [exact IH|naive_solver]|done|].
      cbn [smt_to_nested]. rewrite Hss. eexists; split; [reflexivity|]. by apply text_paren.
    - cbn [Parse_Spec.storable]. intros H.
      destruct (Hlist l) as (ss & Hss & Ht); [eapply Forall_impl; [exact IH|naive_solver]|done|].
      cbn [smt_to_nested]. rewrite Hss. eexists; split; [reflexivity|]. by apply text_paren.
    - cbn [Parse_Spec.storable]. intros H. destruct (proj1 IH H) as (s & Hs & Ht).
      cbn [smt_to_nested]. rewrite Hs. eexists; split; [reflexivity|].
      apply text_paren; [done|by repeat constructor].
    - intros c [= <-]. exact (proj1 IH).
    - cbn [Parse_Spec.storable]. rewrite andb_true_iff. intros [H1 H2].
      destruct (Hpn f (proj1 IHf) (proj2 IHf) H1) as (sf & Hsf & Htf).
      destruct (proj1 IHg H2) as (sg & Hsg & Htg).
      cbn [smt_to_nested]. cbn zeta. rewrite Hsf, Hsg. eexists; split; [reflexivity|].
      apply text_paren; [done|by repeat constructor].
    - cbn [Parse_Spec.storable]. rewrite andb_true_iff. intros [H1 H2].
      destruct (Hpn f (proj1 IHf) (proj2 IHf) H1) as (nf & Hnf & Htnf).
      destruct (Hpn g (proj1 IHg) (proj2 IHg) H2) as (ng & Hng & Htng).
      destruct (proj1 IHf H1) as (sf & Hsf & Htf).
      destruct (proj1 IHg H2) as (sg & Hsg & Htg).
      cbn [smt_to_nested]. cbn zeta. rewrite Hnf, Hng, Hsf, Hsg. eexists; split; [reflexivity|].
      apply text_paren; [done|].
      constructor; [apply text_paren; [done|by repeat constructor]|].
      constructor; [apply text_paren; [done|by repeat constructor]|constructor].
    - cbn [Parse_Spec.storable]. rewrite !andb_true_iff. intros [[H1 H2] H3].
      destruct (proj1 IHc H1) as (s1 & Hs1 & Ht1).
      destruct (proj1 IHt H2) as (s2 & Hs2 & Ht2).
      destruct (proj1 IHe H3) as (s3 & Hs3 & Ht3).
      cbn [smt_to_nested]. rewrite Hs1, Hs2, Hs3. eexists; split; [reflexivity|].
      apply text_paren; [done|by repeat constructor].
    - cbn [Parse_Spec.storable]. intros H.
      destruct (Hlist l) as (ss & Hss & Ht); [eapply Forall_impl; [exact IH|naive_solver]|done|].
      cbn [smt_to_nested]. rewrite Hss. eexists; split; [reflexivity|]. by apply text_paren.
    - cbn [Parse_Spec.storable]. rewrite andb_true_iff. intros [H1 H2].
      destruct (proj1 IHf H1) as (sf & Hsf & Htf). destruct (proj1 IHg H2) as (sg & Hsg & Htg).
      cbn [smt_to_nested]. cbn zeta. rewrite Hsf, Hsg. eexists; split; [reflexivity|].
      apply text_paren; [done|by repeat constructor].
    - cbn [Parse_Spec.storable]. intros H.
      destruct (Hlist l) as (ss & Hss & Ht); [eapply Forall_impl; [exact IH|naive_solver]|done|].
      cbn [smt_to_nested]. rewrite Hss. eexists; split; [reflexivity|]. by apply text_paren.
    - cbn [Parse_Spec.storable]. rewrite andb_true_iff. intros [H1 H2].
      destruct (proj1 IHf H1) as (sf & Hsf & Htf). destruct (proj1 IHg H2) as (sg & Hsg & Htg).
      assert (exists s, (let! s := print f in let! t := print g in Ok (paren "^" [s; t])) = Ok s
                        /\ text_of (Op "^" [ptree f; ptree g]) s) as Hdef.
      { rewrite Hsf, Hsg. eexists; split; [reflexivity|].
        apply text_paren; [done|by repeat constructor]. }
      cbn [smt_to_nested ptree]. cbn zeta.
      destruct (const_val g) as [q|]; [|done]. destruct (decide (q = 1%Qc)); [|done]. eauto.
    - cbn [Parse_Spec.storable]. rewrite andb_true_iff. intros [H1 H2].
      destruct (proj1 IHf H1) as (sf & Hsf & Htf). destruct (proj1 IHg H2) as (sg & Hsg & Htg).
      cbn [smt_to_nested]. cbn zeta. rewrite Hsf, Hsg. eexists; split; [reflexivity|].
      apply text_paren; [done|by repeat constructor].
    - cbn [Parse_Spec.storable]. rewrite andb_true_iff. intros [H1 H2].
      destruct (proj1 IHf H1) as (sf & Hsf & Htf). destruct (proj1 IHg H2) as (sg & Hsg & Htg).
      cbn [smt_to_nested]. cbn zeta. rewrite Hsf, Hsg. eexists; split; [reflexivity|].
      apply text_paren; [done|by repeat constructor].
    - cbn [Parse_Spec.storable]. rewrite andb_true_iff. intros [H1 H2].
      destruct (proj1 IHf H1) as (sf & Hsf & Htf). destruct (proj1 IHg H2) as (sg & Hsg & Htg).
      cbn [smt_to_nested]. cbn zeta. rewrite Hsf, Hsg. eexists; split; [reflexivity|].
      apply text_paren; [done|by repeat constructor].
    - cbn [Parse_Spec.storable]. intros H. destruct (proj1 IH H) as (s & Hs & Ht).
      cbn [smt_to_nested]. rewrite Hs. eexists; split; [reflexivity|].
      apply text_paren; [done|by repeat constructor].
  Qed.

  (** ** Reading the text *)

  Lemma ptree_pn_ok a :
    tree_ok smt_operators (ptree a) = true ->
    (forall c, a = NotN c -> tree_ok smt_operators (ptree c) = true) ->
    tree_ok smt_operators (match a with NotN c => ptree c | _ => Op "~" [ptree a] end) = true.
  Proof.
    intros H1 H2. assert (tree_ok smt_operators (Op "~" [ptree a]) = true) as Hdef.
    { cbn [tree_ok forallb]. by rewrite H1. }
    destruct a; try exact Hdef. by apply (H2 _ eq_refl).
  Qed.

  Lemma ptree_ok f : storable f = true -> tree_ok smt_operators (ptree f) = true.
  Proof.
    assert (Hlist : forall l,
      Forall (fun f => storable f = true -> tree_ok smt_operators (ptree f) = true) l ->
      forallb storable l = true -> forallb (tree_ok smt_operators) (map ptree l) = true).
    { induction 1 as [|g l Hg Hl IHl]; simpl; [done|].
      rewrite !andb_true_iff. intros [H1 H2]. auto. }
    revert f.
    assert (Hboth : forall f,
      (storable f = true -> tree_ok smt_operators (ptree f) = true) /\
      (forall c, f = NotN c -> storable c = true -> tree_ok smt_operators (ptree c) = true)).
    2:{ intros f. apply Hboth. }
    induction f as [n t|b|q|z|l IH|l IH|f IH|f g IHf IHg|f g IHf IHg|c t e IHc IHt IHe|l IH
                   |f g IHf IHg|l IH|f g IHf IHg|f g IHf IHg|f g IHf IHg|f g IHf IHg|f IH|f IH]
      using fm_ind'; split; try (intros; discriminate); cbn [Parse_Spec.storable]; intros H;
      rewrite ?andb_true_iff in H.
    - destruct H as [_ H]. simpl. rewrite H. by destruct t.
    - by destruct b.
    - destruct (to_float q) as [r|] eqn:Hq; [|done].
      cbn [ptree tree_ok forallb]. unfold rnd. rewrite Hq. change (default q (Some r)) with r.
      rewrite (fo_show _ _ _ Hfl r); [done|]. by eapply fo_idem.
    - cbn [ptree tree_ok]. rewrite Hlist; [done| |done].
      eapply Forall_impl; [exact IH|naive_solver].
    - cbn [ptree tree_ok]. rewrite Hlist; [done| |done].
      eapply Forall_impl; [exact IH|naive_solver].
    - cbn [ptree tree_ok forallb]. rewrite (proj1 IH); done.
    - intros [= <-]. exact (proj1 IH).
    - destruct H as [H1 H2]. cbn [ptree tree_ok forallb]. cbn zeta.
      rewrite ptree_pn_ok, (proj1 IHg); [done|done|exact (proj1 IHf H1)|].
      intros c ->. apply (proj2 IHf c eq_refl). done.
    - destruct H as [H1 H2]. cbn [ptree tree_ok forallb]. cbn zeta.
      rewrite (ptree_pn_ok f), (ptree_pn_ok g), (proj1 IHg), (proj1 IHf); try done;
        try exact (proj1 IHf H1); try exact (proj1 IHg H2).
      + intros c ->. by apply (proj2 IHg c eq_refl).
      + intros c ->. by apply (proj2 IHf c eq_refl).
    - destruct H as [[H1 H2] H3]. cbn [ptree tree_ok forallb].
      rewrite (proj1 IHc), (proj1 IHt), (proj1 IHe); done.
    - cbn [ptree tree_ok]. rewrite Hlist; [done| |done].
      eapply Forall_impl; [exact IH|naive_solver].
    - destruct H as [H1 H2]. cbn [ptree tree_ok forallb]. rewrite (proj1 IHf), (proj1 IHg); done.
    - cbn [ptree tree_ok]. rewrite Hlist; [done| |done].
      eapply Forall_impl; [exact IH|naive_solver].
    - destruct H as [H1 H2]. cbn [ptree].
      assert (tree_ok smt_operators (Op "^" [ptree f; ptree g]) = true) as Hdef.
      { cbn [tree_ok forallb]. rewrite (proj1 IHf), (proj1 IHg); done. }
      destruct (const_val g) as [q|]; [|done]. destruct (decide (q = 1%Qc)); [|done].
      exact (proj1 IHf H1).
    - destruct H as [H1 H2]. cbn [ptree tree_ok forallb]. rewrite (proj1 IHf), (proj1 IHg); done.
    - destruct H as [H1 H2]. cbn [ptree tree_ok forallb]. rewrite (proj1 IHf), (proj1 IHg); done.
    - destruct H as [H1 H2]. cbn [ptree tree_ok forallb]. rewrite (proj1 IHf), (proj1 IHg); done.
    - cbn [ptree tree_ok forallb]. rewrite (proj1 IH); done.
  Qed.

  Lemma ptree_is_op f : exists op args, ptree f = Op op args.
  Proof.
    induction f using fm_ind'; try (by do 2 eexists; reflexivity).
    cbn [ptree]. destruct (const_val f2) as [q|]; [destruct (decide _)|]; [done| |];
      by do 2 eexists; reflexivity.
  Qed.

  Lemma typeof_list_eq (g : fm -> fm) l :
    Forall (fun f => typeof (g f) = typeof f) l -> map typeof (map g l) = map typeof l.
  Proof. induction 1 as [|f l Hf Hl IH]; simpl; [done|]. by rewrite Hf, IH. Qed.

  Lemma typeof_reparse f : typed f -> typeof (reparse f) = typeof f.
  Proof.
    unfold typed.
    assert (Hb : forall a t, typeof a = Some t -> (typeof a <> None -> typeof (reparse a) = typeof a) ->
                 typeof (reparse a) = Some t).
    { intros a t H1 H2. rewrite H2; congruence. }
    assert (Hlist : forall l t,
      Forall (fun f => typeof f <> None -> typeof (reparse f) = typeof f) l ->
      Forall (fun f => typeof f = Some t) l ->
      Forall (fun f => typeof f = Some t) (map reparse l)).
    { intros l t H1 H2. induction H2 as [|g l Hg Hl IHl]; simpl; [constructor|].
      inversion H1; subst. constructor; [|auto]. by apply Hb. }
    assert (Hrn : forall a, typeof a = Some TBool ->
       (typeof a <> None -> typeof (reparse a) = typeof a) ->
       (forall c, a = NotN c -> typeof c <> None -> typeof (reparse c) = typeof c) ->
       typeof (match a with NotN c => reparse c | _ => mkNot (reparse a) end) = Some TBool).
    { intros a Ha H1 H2. pose proof (typeof_mkNot _ (Hb _ _ Ha H1)) as Hdef.
      destruct a; try exact Hdef. cbn [typeof] in Ha. case_bool_decide as Hc; [|done].
      rewrite (H2 _ eq_refl); congruence. }
    revert f.
    assert (Hboth : forall f,
      (typeof f <> None -> typeof (reparse f) = typeof f) /\
      (forall c, f = NotN c -> typeof c <> None -> typeof (reparse c) = typeof c)).
    2:{ intros f. apply Hboth. }
    assert (Hproj : forall l, Forall (fun f =>
      (typeof f <> None -> typeof (reparse f) = typeof f) /\
      (forall c, f = NotN c -> typeof c <> None -> typeof (reparse c) = typeof c)) l ->
      Forall (fun f => typeof f <> None -> typeof (reparse f) = typeof f) l).
    { intros l H. eapply Forall_impl; [exact H|]. naive_solver. }
    induction f as [n t|b|q|z|l IH|l IH|f IH|f g IHf IHg|f g IHf IHg|c t e IHc IHt IHe|l IH
                   |f g IHf IHg|l IH|f g IHf IHg|f g IHf IHg|f g IHf IHg|f g IHf IHg|f IH|f IH]
      using fm_ind'; split; try (intros; discriminate); try (intros _; done).
    - intros H. pose proof (typed_and _ H) as Hl.
      pose proof (Hlist _ _ (Hproj _ IH) Hl) as Hr.
      transitivity (Some TBool); [|cbn [typeof]; by rewrite (proj2 (all_ty_Forall _ _) Hl)].
      cbn [reparse]. destruct (map reparse l) as [|x [|y r]] eqn:E; cbn [mkAnd].
      + done.
      + by inversion Hr.
      + cbn [typeof]. by rewrite (proj2 (all_ty_Forall _ _) Hr).
    - intros H. pose proof (typed_and _ H) as Hl.
      pose proof (Hlist _ _ (Hproj _ IH) Hl) as Hr.
      transitivity (Some TBool); [|cbn [typeof]; by rewrite (proj2 (all_ty_Forall _ _) Hl)].
      cbn [reparse]. destruct (map reparse l) as [|x [|y r]] eqn:E; cbn [mkOr].
      + done.
      + by inversion Hr.
      + cbn [typeof]. by rewrite (proj2 (all_ty_Forall _ _) Hr).
    - intros H. apply typed_not in H. cbn [reparse typeof]. rewrite bool_decide_true by done.
      apply typeof_mkNot. apply Hb; [done|exact (proj1 IH)].
    - intros c [= <-]. exact (proj1 IH).
    - intros H. pose proof (typed_imp _ _ H) as [H1 H2]. cbn [reparse]. cbn zeta.
      assert (typeof (ImpN f g) = Some TBool) as ->.
      { cbn [typeof]. by rewrite !bool_decide_true. }
      cbn [typeof map all_ty forallb].
      rewrite (Hrn f H1 (proj1 IHf) (proj2 IHf)), (Hb g TBool H2 (proj1 IHg)). done.
    - intros H. pose proof (typed_imp f g H) as [H1 H2]. cbn [reparse]. cbn zeta.
      assert (typeof (IffN f g) = Some TBool) as ->.
      { cbn [typeof]. by rewrite !bool_decide_true. }
      cbn [typeof map all_ty forallb].
      rewrite (Hrn f H1 (proj1 IHf) (proj2 IHf)), (Hb g TBool H2 (proj1 IHg)).
      rewrite (Hrn g H2 (proj1 IHg) (proj2 IHg)), (Hb f TBool H1 (proj1 IHf)). done.
    - intros H. destruct (typed_ite _ _ _ H) as (H1 & H2 & H3). cbn [reparse typeof].
      rewrite (Hb c TBool H1 (proj1 IHc)), (proj1 IHt H3), (proj1 IHe); [|unfold typed in H3; congruence].
      by rewrite H1.
    - intros H. destruct (typed_plus _ H) as (t & H1 & H2 & H3).
      cbn [reparse typeof]. rewrite (nary_num_intro (map reparse l) t).
      + by rewrite (nary_num_intro l t).
      + done.
      + by destruct l.
      + apply Hlist; auto.
    - intros H. destruct (typed_minus _ _ H) as (t & H1 & H2 & H3). cbn [reparse typeof].
      rewrite (Hb f t H2 (proj1 IHf)), (Hb g t H3 (proj1 IHg)), H2, H3. done.
    - intros H. destruct (typed_plus l H) as (t & H1 & H2 & H3).
      cbn [reparse typeof]. rewrite (nary_num_intro (map reparse l) t).
      + by rewrite (nary_num_intro l t).
      + done.
      + by destruct l.
      + apply Hlist; auto.
    - intros H. destruct (typed_minus f g H) as (t & H1 & H2 & H3). cbn [reparse].
      assert (typeof (PowN (reparse f) (reparse g)) = typeof (PowN f g)) as Hdef.
      { cbn [typeof]. rewrite (Hb f t H2 (proj1 IHf)), (Hb g t H3 (proj1 IHg)), H2, H3. done. }
      destruct (const_val g) as [q|]; [|done]. destruct (decide (q = 1%Qc)); [|done].
      rewrite (Hb f t H2 (proj1 IHf)). cbn [typeof]. rewrite H2, H3.
      symmetry. unfold nary_num, all_ty. cbn [forallb]. rewrite bool_decide_true by done. by rewrite H1.
    - intros H. destruct (typed_le f g H) as (t & H1 & H2 & H3). cbn [reparse typeof].
      rewrite (Hb f t H2 (proj1 IHf)), (Hb g t H3 (proj1 IHg)), H2, H3. done.
    - intros H. destruct (typed_le f g H) as (t & H1 & H2 & H3). cbn [reparse typeof].
      rewrite (Hb f t H2 (proj1 IHf)), (Hb g t H3 (proj1 IHg)), H2, H3. done.
    - intros H. destruct (typed_le f g H) as (t & H1 & H2 & H3). cbn [reparse typeof].
      rewrite (Hb f t H2 (proj1 IHf)), (Hb g t H3 (proj1 IHg)), H2, H3. done.
    - intros H. cbn [typeof] in H. case_bool_decide as Hf; [|done].
      cbn [reparse typeof]. rewrite (Hb f TReal Hf (proj1 IH)). by rewrite Hf.
    - intros H. cbn [reparse typeof]. rewrite (proj1 IH); [done|].
      intros Hn. apply H. cbn [typeof]. by rewrite Hn.
  Qed.

  Lemma reparse_nonconst f t :
    wf_fm f = true -> typeof f = Some t -> ty_num t = true -> is_const f = false ->
    is_const (reparse f) = false.
  Proof.
    revert t. induction f using fm_ind'; intros u Hw Ht Hu Hc; try done.
    all: try (cbn [typeof] in Ht; repeat case_bool_decide; try done;
              repeat case_match; simplify_eq; done).
    cbn [reparse]. cbn [wf_fm] in Hw. rewrite !andb_true_iff, negb_true_iff in Hw.
    destruct (typed_minus f1 f2) as (t & H1 & H2 & H3).
    { change (typeof (PowN f1 f2) <> None). by rewrite Ht. }
    assert (is_const (reparse f1) = false) by (eapply IHf1; naive_solver).
    repeat case_match; done.
  Qed.

  Notation rd := (ast_to_smt read).

  Lemma rd_and ch : rd (Node (Some "&") ch) = let! l := rmapM rd ch in chk (mkAnd l).
  Proof. reflexivity. Qed.
  Lemma rd_or ch : rd (Node (Some "|") ch) = let! l := rmapM rd ch in chk (mkOr l).
  Proof. reflexivity. Qed.
  Lemma rd_times ch : rd (Node (Some "*") ch) = let! l := rmapM rd ch in chk_res (mkTimes l).
  Proof. reflexivity. Qed.
  Lemma rd_plus ch : rd (Node (Some "+") ch) = let! l := rmapM rd ch in chk_res (mkPlus l).
  Proof. reflexivity. Qed.
  Lemma rd_not a : rd (Node (Some "~") [a]) =
    let! x := rd a in let! _ := chk (NotN x) in Ok (mkNot x).
  Proof. transitivity (let! l := rmapM rd [a] in
           apply1 (fun a => let! _ := chk (NotN a) in Ok (mkNot a)) l); [reflexivity|].
         simpl. by destruct (rd a). Qed.
  Lemma rd_bin op (c : fm -> fm -> Res fm) a b x y :
    (rd (Node (Some op) [a; b]) = let! l := rmapM rd [a; b] in apply2 c l) ->
    rd a = Ok x -> rd b = Ok y -> rd (Node (Some op) [a; b]) = c x y.
  Proof. intros -> H1 H2. cbn [rmapM]. by rewrite H1, H2. Qed.
  Lemma rd_ite a b d x y z :
    rd a = Ok x -> rd b = Ok y -> rd d = Ok z ->
    rd (Node (Some "ite") [a; b; d]) = chk (IteN x y z).
  Proof.
    intros H1 H2 H3. transitivity (let! l := rmapM rd [a; b; d] in
      apply3 (fun c t e => chk (IteN c t e)) l); [reflexivity|].
    cbn [rmapM]. by rewrite H1, H2, H3.
  Qed.
  Lemma rd_exp a x : rd a = Ok x -> rd (Node (Some "exp") [a]) = chk (ExpN x).
  Proof.
    intros H1. transitivity (let! l := rmapM rd [a] in apply1 (fun a => chk (ExpN a)) l);
      [reflexivity|].
    cbn [rmapM]. by rewrite H1.
  Qed.

  Lemma chk_typed f : typed f -> chk f = Ok f.
  Proof. unfold typed, chk. by destruct (typeof f). Qed.
  Lemma typed_reparse f : typed f -> typed (reparse f).
  Proof. intros H. unfold typed. by rewrite typeof_reparse. Qed.

  Lemma rmapM_rd l :
    Forall (fun f => rd (as_node (ptree f)) = Ok (reparse f)) l ->
    rmapM rd (map as_node (map ptree l)) = Ok (map reparse l).
  Proof. induction 1 as [|f l Hf Hl IH]; [done|]. cbn [map]. rewrite rmapM_cons, Hf.
         cbn [rbind]. by rewrite IH. Qed.

  Lemma rd_notP a :
    typeof a = Some TBool -> rd (as_node (ptree a)) = Ok (reparse a) ->
    rd (as_node (Op "~" [ptree a])) = Ok (mkNot (reparse a)).
  Proof.
    intros Ht Ha. cbn [as_node map]. rewrite rd_not, Ha. cbn [rbind].
    rewrite chk_typed; [done|]. unfold typed. cbn [typeof].
    rewrite typeof_reparse by (unfold typed; by rewrite Ht). by rewrite Ht.
  Qed.

  Lemma rd_ptree f :
    storable f = true -> wf_fm f = true -> typed f ->
    rd (as_node (ptree f)) = Ok (reparse f).
  Proof.
    set (P f := storable f = true -> wf_fm f = true -> typed f ->
                rd (as_node (ptree f)) = Ok (reparse f)).
    assert (Hlist : forall l, Forall P l -> forallb storable l = true ->
              forallb wf_fm l = true -> Forall typed l ->
              Forall (fun f => rd (as_node (ptree f)) = Ok (reparse f)) l).
    { intros l Hl. induction Hl as [|g l Hg Hl IHl]; simpl; [constructor|].
      rewrite !andb_true_iff. intros [H1 H2] [H3 H4] H5. inversion H5; subst.
      constructor; [by apply Hg|by apply IHl]. }
    assert (HT : forall a t, typeof a = Some t -> typed a).
    { intros a t H. unfold typed. by rewrite H. }
    assert (Hrn : forall a, typeof a = Some TBool -> P a -> (forall c, a = NotN c -> P c) ->
       storable a = true -> wf_fm a = true ->
       rd (as_node (match a with NotN c => ptree c | _ => Op "~" [ptree a] end)) =
       Ok (match a with NotN c => reparse c | _ => mkNot (reparse a) end)).
    { intros a Ha H1 H2 Hs Hw.
      pose proof (rd_notP a Ha (H1 Hs Hw (HT _ _ Ha))) as Hdef.
      destruct a; try exact Hdef. apply (H2 _ eq_refl); [done|done|].
      cbn [typeof] in Ha. case_bool_decide; [|done]. by eapply HT. }
    revert f.
    assert (Hboth : forall f, P f /\ (forall c, f = NotN c -> P c)).
    2:{ intros f. exact (proj1 (Hboth f)). }
    assert (Hproj : forall l, Forall (fun f => P f /\ (forall c, f = NotN c -> P c)) l -> Forall P l).
    { intros l H. eapply Forall_impl; [exact H|]. naive_solver. }
    induction f as [n t|b|q|z|l IH|l IH|f IH|f g IHf IHg|f g IHf IHg|c t e IHc IHt IHe|l IH
                   |f g IHf IHg|l IH|f g IHf IHg|f g IHf IHg|f g IHf IHg|f g IHf IHg|f IH|f IH]
      using fm_ind';
      (split; [|try (intros; discriminate); try (intros c [= <-]; exact (proj1 IH))]);
      try (intros Hs Hw Ht; cbn [Parse_Spec.storable wf_fm] in Hs, Hw;
           rewrite ?andb_true_iff in Hs; rewrite ?andb_true_iff in Hw).
    - destruct Hs as [Hs _]. rewrite negb_true_iff in Hs. case_bool_decide; [done|].
      by destruct t.
    - by destruct b.
    - destruct (to_float q) as [r|] eqn:Hq; [|done]. cbn [ptree as_node map reparse].
      unfold rnd. rewrite Hq. change (default q (Some r)) with r.
      pose proof (fo_read _ _ _ Hfl r (fo_idem _ _ _ Hfl _ _ Hq)) as Hr.
      transitivity (match read (show r) with Some q => Ok (RealC q) | None => Err ValueError end);
        [reflexivity|]. by rewrite Hr.
    - done.
    - cbn [ptree as_node]. pose proof (typed_reparse _ Ht) as Ht'. apply typed_and in Ht.
      rewrite rd_and, rmapM_rd by (apply Hlist; [auto|done|naive_solver|by eapply Forall_typed_bool]).
      cbn [rbind]. by apply chk_typed.
    - cbn [ptree as_node]. pose proof (typed_reparse _ Ht) as Ht'. apply (typed_and l) in Ht.
      rewrite rd_or, rmapM_rd by (apply Hlist; [auto|done|naive_solver|by eapply Forall_typed_bool]).
      cbn [rbind]. by apply chk_typed.
    - apply typed_not in Ht. cbn [ptree]. apply rd_notP; [done|]. apply (proj1 IH); eauto.
    - pose proof (typed_reparse _ Ht) as Ht'. apply typed_imp in Ht as [H1 H2].
      cbn [ptree as_node map]. cbn zeta. rewrite rd_or. cbn [rmapM].
      rewrite (Hrn f), (proj1 IHg); [|naive_solver|naive_solver|by eapply HT|done|..];
        [|apply (proj1 IHf)|apply (proj2 IHf)|naive_solver|naive_solver].
      by apply chk_typed.
    - pose proof (typed_reparse _ Ht) as Ht'. apply (typed_imp f g) in Ht as [H1 H2].
      assert (exists R1 R2, reparse (IffN f g) = AndN [R1; R2] /\
                reparse (ImpN f g) = R1 /\ reparse (ImpN g f) = R2) as (R1 & R2 & HR & HR1 & HR2).
      { do 2 eexists; done. }
      assert (forall a b, P a -> P b -> (forall c, a = NotN c -> P c) ->
         typeof a = Some TBool -> typeof b = Some TBool ->
         storable a = true -> storable b = true -> wf_fm a = true -> wf_fm b = true ->
         rd (as_node (ptree (ImpN a b))) = Ok (reparse (ImpN a b))) as Himp.
      { intros a b Pa Pb Pn Ta Tb Sa Sb Wa Wb.
        assert (typed (reparse (ImpN a b))) as Hty.
        { apply typed_reparse. unfold typed. cbn [typeof]. by rewrite !bool_decide_true. }
        cbn [ptree as_node map]. cbn zeta. rewrite rd_or. cbn [rmapM].
        rewrite (Hrn a), Pb; [|done|done|by eapply HT|done..]. by apply chk_typed. }
      rewrite HR. change (as_node (ptree (IffN f g))) with
        (Node (Some "&") [as_node (ptree (ImpN f g)); as_node (ptree (ImpN g f))]).
      rewrite rd_and. cbn [rmapM].
      destruct Hs, Hw, IHf, IHg.
      rewrite (Himp f g), (Himp g f), HR1, HR2; [|done..]. cbn [rbind mkAnd].
      apply chk_typed. by rewrite <- HR.
    - pose proof (typed_reparse _ Ht) as Ht'. destruct (typed_ite _ _ _ Ht) as (H1 & H2 & H3).
      cbn [ptree as_node map].
      rewrite (rd_ite _ _ _ (reparse c) (reparse t) (reparse e)); [by apply chk_typed|..].
      + apply (proj1 IHc); [naive_solver|naive_solver|by eapply HT].
      + apply (proj1 IHt); [naive_solver|naive_solver|done].
      + apply (proj1 IHe); [naive_solver|naive_solver|]. unfold typed in *. congruence.
    - cbn [ptree as_node]. pose proof (typed_reparse _ Ht) as Ht'.
      apply typed_plus in Ht as (t & _ & _ & Ht).
      rewrite rd_plus, rmapM_rd by (apply Hlist; [auto|done|naive_solver|by eapply Forall_typed_bool]).
      cbn [rbind]. destruct Hw as [Hw _]. destruct l as [|a [|b l]]; [done..|].
      cbn [map mkPlus]. by apply chk_typed.
    - pose proof (typed_reparse _ Ht) as Ht'. destruct (typed_minus _ _ Ht) as (t & H1 & H2 & H3).
      cbn [ptree as_node map]. erewrite rd_bin; [|reflexivity|..]; [by apply chk_typed| |].
      + apply (proj1 IHf); [naive_solver|naive_solver|by eapply HT].
      + apply (proj1 IHg); [naive_solver|naive_solver|by eapply HT].
    - cbn [ptree as_node]. pose proof (typed_reparse _ Ht) as Ht'.
      apply (typed_plus l) in Ht as (t & _ & _ & Ht).
      rewrite rd_times, rmapM_rd by (apply Hlist; [auto|done|naive_solver|by eapply Forall_typed_bool]).
      cbn [rbind]. destruct Hw as [Hw _]. destruct l as [|a [|b l]]; [done..|].
      cbn [map mkTimes]. by apply chk_typed.
    - pose proof (typed_reparse _ Ht) as Ht'.
      destruct (typed_minus f g Ht) as (t & H1 & H2 & H3).
      destruct Hs as [Hs1 Hs2]. destruct Hw as [[[Hw1 Hw2] Hw3] Hw4].
      assert (Hf : rd (as_node (ptree f)) = Ok (reparse f)).
      { apply (proj1 IHf); [done|done|by eapply HT]. }
      assert (Hg : rd (as_node (ptree g)) = Ok (reparse g)).
      { apply (proj1 IHg); [done|done|by eapply HT]. }
      assert (Hnc : is_const (reparse f) = false).
      { eapply reparse_nonconst; eauto. by rewrite negb_true_iff in Hw1. }
      assert (Hcg : is_const (reparse g) = true) by (by destruct g).
      cbn [ptree reparse] in Ht' |- *.
      assert (rd (as_node (Op "^" [ptree f; ptree g])) = Ok (PowN (reparse f) (reparse g))) as Hdef.
      { cbn [as_node map]. erewrite rd_bin; [|reflexivity|exact Hf|exact Hg]. cbn beta.
        assert (mkPow (reparse f) (reparse g) = Ok (PowN (reparse f) (reparse g))) as ->.
        { unfold mkPow. rewrite Hcg. by destruct (reparse f). }
        cbn [chk_res rbind]. apply chk_typed. unfold typed. cbn [typeof].
        rewrite !typeof_reparse, H2, H3 by (by eapply HT). by destruct t. }
      destruct (const_val g) as [q|]; [|done]. destruct (decide (q = 1%Qc)); done.
    - pose proof (typed_reparse _ Ht) as Ht'. destruct (typed_le f g Ht) as (t & H1 & H2 & H3).
      cbn [ptree as_node map]. erewrite rd_bin; [|reflexivity|..]; [by apply chk_typed| |].
      + apply (proj1 IHf); [naive_solver|naive_solver|by eapply HT].
      + apply (proj1 IHg); [naive_solver|naive_solver|by eapply HT].
    - pose proof (typed_reparse _ Ht) as Ht'. destruct (typed_le f g Ht) as (t & H1 & H2 & H3).
      cbn [ptree as_node map]. erewrite rd_bin; [|reflexivity|..]; [by apply chk_typed| |].
      + apply (proj1 IHf); [naive_solver|naive_solver|by eapply HT].
      + apply (proj1 IHg); [naive_solver|naive_solver|by eapply HT].
    - pose proof (typed_reparse _ Ht) as Ht'. destruct (typed_le f g Ht) as (t & H1 & H2 & H3).
      cbn [ptree as_node map]. erewrite rd_bin; [|reflexivity|..]; [by apply chk_typed| |].
      + apply (proj1 IHf); [naive_solver|naive_solver|by eapply HT].
      + apply (proj1 IHg); [naive_solver|naive_solver|by eapply HT].
    - pose proof (typed_reparse _ Ht) as Ht'. cbn [ptree as_node map].
      erewrite rd_exp; [by apply chk_typed|]. apply (proj1 IH); [done|done|].
      unfold typed in Ht. cbn [typeof] in Ht. case_bool_decide as Hf; [|done]. by eapply HT.
    - done.
  Qed.

  (** ** Meaning of what is read *)

  Lemma eval_and2 e a b :
    eval e (AndN [a; b]) =
      (x ← vbool (eval e a); y ← vbool (eval e b); Some (VB (x && y))).
  Proof.
    cbn [eval]. cbn [mapM]. destruct (vbool (eval e a)) as [x|]; [|done].
    cbn. destruct (vbool (eval e b)) as [y|]; [|done]. cbn. by rewrite andb_true_r.
  Qed.
  Lemma eval_or2 e a b :
    eval e (OrN [a; b]) =
      (x ← vbool (eval e a); y ← vbool (eval e b); Some (VB (x || y))).
  Proof.
    cbn [eval]. cbn [mapM]. destruct (vbool (eval e a)) as [x|]; [|done].
    cbn. destruct (vbool (eval e b)) as [y|]; [|done]. cbn. by rewrite orb_false_r.
  Qed.

  Lemma eval_reparse e f :
    storable f = true -> wf_fm f = true -> typed f ->
    eval e (reparse f) = eval e (stored f).
  Proof.
    set (P f := storable f = true -> wf_fm f = true -> typed f ->
                eval e (reparse f) = eval e (stored f)).
    assert (HT : forall a t, typeof a = Some t -> typed a).
    { intros a t H. unfold typed. by rewrite H. }
    assert (Hlb : forall (V : option val -> option bool) l, Forall P l -> forallb storable l = true ->
              forallb wf_fm l = true -> Forall typed l ->
              mapM (fun g => V (eval e g)) (map reparse l) = mapM (fun g => V (eval e g)) (map stored l)).
    { intros V l Hl. induction Hl as [|g l Hg Hl IHl]; simpl; [done|].
      rewrite !andb_true_iff. intros [H1 H2] [H3 H4] H5. inversion H5; subst.
      rewrite Hg by done. by rewrite IHl. }
    assert (Hlq : forall (V : option val -> option Qc) l, Forall P l -> forallb storable l = true ->
              forallb wf_fm l = true -> Forall typed l ->
              mapM (fun g => V (eval e g)) (map reparse l) = mapM (fun g => V (eval e g)) (map stored l)).
    { intros V l Hl. induction Hl as [|g l Hg Hl IHl]; simpl; [done|].
      rewrite !andb_true_iff. intros [H1 H2] [H3 H4] H5. inversion H5; subst.
      rewrite Hg by done. by rewrite IHl. }
    assert (Hrn : forall a, typeof a = Some TBool -> P a -> (forall c, a = NotN c -> P c) ->
       storable a = true -> wf_fm a = true ->
       eval e (match a with NotN c => reparse c | _ => mkNot (reparse a) end) =
       eval e (NotN (stored a))).
    { intros a Ha H1 H2 Hs Hw.
      assert (eval e (mkNot (reparse a)) = eval e (NotN (stored a))) as Hdef.
      { rewrite eval_mkNot.
        - cbn [eval]. by rewrite H1; [|done|done|by eapply HT].
        - rewrite typeof_reparse; [done|by eapply HT]. }
      destruct a; try exact Hdef. rewrite (H2 _ eq_refl); [|done|done|].
      - cbn [Parse_Spec.stored eval]. cbn [typeof] in Ha. case_bool_decide as Hb; [|done].
        assert (typed a) as Hta by by eapply HT.
        assert (eval e (reparse a) = eval e (stored a)) as Heq by by apply (H2 _ eq_refl).
        rewrite <- Heq.
        destruct (eval_bool_typed e (reparse a)) as [->|[b ->]]; [|done|].
        + by rewrite typeof_reparse.
        + simpl. by rewrite negb_involutive.
      - cbn [typeof] in Ha. case_bool_decide; [|done]. by eapply HT. }
    revert f.
    assert (Hboth : forall f, P f /\ (forall c, f = NotN c -> P c)).
    2:{ intros f. exact (proj1 (Hboth f)). }
    assert (Hproj : forall l, Forall (fun f => P f /\ (forall c, f = NotN c -> P c)) l -> Forall P l).
    { intros l H. eapply Forall_impl; [exact H|]. naive_solver. }
    induction f as [n t|b|q|z|l IH|l IH|f IH|f g IHf IHg|f g IHf IHg|c t u IHc IHt IHe|l IH
                   |f g IHf IHg|l IH|f g IHf IHg|f g IHf IHg|f g IHf IHg|f g IHf IHg|f IH|f IH]
      using fm_ind';
      (split; [|try (intros; discriminate); try (intros c [= <-]; exact (proj1 IH))]);
      try (intros Hs Hw Ht; cbn [Parse_Spec.storable wf_fm] in Hs, Hw;
           rewrite ?andb_true_iff in Hs; rewrite ?andb_true_iff in Hw; try destruct_and! Hs; try destruct_and! Hw).
    - done.
    - done.
    - done.
    - done.
    - apply typed_and in Ht. cbn [reparse Parse_Spec.stored].
      assert (mkAnd (map reparse l) = AndN (map reparse l)) as ->.
      { by destruct l as [|a [|b l]]. }
      cbn [eval]. rewrite Hlb; [done|by apply Hproj|done|done|by eapply Forall_typed_bool].
    - apply (typed_and l) in Ht. cbn [reparse Parse_Spec.stored].
      assert (mkOr (map reparse l) = OrN (map reparse l)) as ->.
      { by destruct l as [|a [|b l]]. }
      cbn [eval]. rewrite Hlb; [done|by apply Hproj|done|done|by eapply Forall_typed_bool].
    - apply typed_not in Ht. assert (typed f) by by eapply HT.
      cbn [reparse Parse_Spec.stored]. rewrite eval_mkNot by (by rewrite typeof_reparse).
      cbn [eval]. by rewrite (proj1 IH).
    - apply typed_imp in Ht as [TH1 TH2]. cbn [reparse Parse_Spec.stored]. cbn zeta.
      rewrite eval_or2, (Hrn f), (proj1 IHg);
        [|done|done|by eapply HT|done|exact (proj1 IHf)|exact (proj2 IHf)|done..].
      cbn [eval]. destruct (vbool (eval e (stored f))) as [x|]; [|done]. simpl.
      destruct (vbool (eval e (stored g))) as [y|]; [|done]. simpl. by destruct x.
    - apply (typed_imp f g) in Ht as [TH1 TH2]. cbn [reparse Parse_Spec.stored]. cbn zeta.
      rewrite eval_and2, !eval_or2, (Hrn f), (Hrn g), (proj1 IHg), (proj1 IHf);
        try done; try (by eapply HT); try exact (proj1 IHf); try exact (proj1 IHg);
        try exact (proj2 IHf); try exact (proj2 IHg).
      cbn [eval]. destruct (vbool (eval e (stored f))) as [x|]; [|done]. simpl.
      destruct (vbool (eval e (stored g))) as [y|]; [|done]. simpl. by destruct x, y.
    - destruct (typed_ite _ _ _ Ht) as (TH1 & TH2 & TH3). cbn [reparse Parse_Spec.stored eval].
      assert (typed u). { unfold typed in *. congruence. }
      rewrite (proj1 IHc), (proj1 IHt), (proj1 IHe); try done. by eapply HT.
    - apply typed_plus in Ht as (t & _ & _ & Ht). cbn [reparse Parse_Spec.stored eval].
      rewrite Hlq; [done|by apply Hproj|done|done|by eapply Forall_typed_bool].
    - destruct (typed_minus _ _ Ht) as (t & TH1 & TH2 & TH3). cbn [reparse Parse_Spec.stored eval].
      rewrite (proj1 IHf), (proj1 IHg); try done; by eapply HT.
    - apply (typed_plus l) in Ht as (t & _ & _ & Ht). cbn [reparse Parse_Spec.stored eval].
      rewrite Hlq; [done|by apply Hproj|done|done|by eapply Forall_typed_bool].
    - destruct (typed_minus f g Ht) as (t & TH1 & TH2 & TH3).
      assert (typed f) by by eapply HT. assert (typed g) by by eapply HT.
      assert (eval e (PowN (reparse f) (reparse g)) = eval e (PowN (stored f) (stored g))) as Hdef.
      { cbn [eval]. rewrite (proj1 IHf), (proj1 IHg); done. }
      cbn [reparse Parse_Spec.stored].
      destruct (const_val g) as [q|] eqn:Hg; [|done].
      destruct (decide (q = 1%Qc)) as [->|Hq]; [|done].
      assert (eval e (stored g) = Some (VN 1%Qc)) as Hg1.
      { destruct g; try done; cbn [const_val] in Hg; injection Hg as Hg.
        subst. cbn [Parse_Spec.stored eval]. by rewrite (fo_one _ _ _ Hfl). }
      cbn [eval]. rewrite Hg1.
      rewrite <- (proj1 IHf) by done.
      destruct (eval_num_typed e (reparse f) t) as [->|[x ->]]; [by rewrite typeof_reparse|done|done|].
      transitivity (Some (VN (x * 1)%Qc)); [|done]. do 2 f_equal. ring.
    - destruct (typed_le f g Ht) as (t & TH1 & TH2 & TH3). cbn [reparse Parse_Spec.stored eval].
      rewrite (proj1 IHf), (proj1 IHg); try done; by eapply HT.
    - destruct (typed_le f g Ht) as (t & TH1 & TH2 & TH3). cbn [reparse Parse_Spec.stored eval].
      rewrite (proj1 IHf), (proj1 IHg); try done; by eapply HT.
    - destruct (typed_le f g Ht) as (t & TH1 & TH2 & TH3). cbn [reparse Parse_Spec.stored eval].
      rewrite (proj1 IHf), (proj1 IHg); try done; by eapply HT.
    - done.
    - done.
  Qed.

  Lemma stored_exact f : exact_consts to_float f = true -> stored f = f.
  Proof.
    induction f as [n t|b|q|z|l IH|l IH|f IH|f g IHf IHg|f g IHf IHg|c t u IHc IHt IHe|l IH
                   |f g IHf IHg|l IH|f g IHf IHg|f g IHf IHg|f g IHf IHg|f g IHf IHg|f IH|f IH]
      using fm_ind'; cbn [exact_consts Parse_Spec.stored]; intros H; rewrite ?andb_true_iff in H;
      destruct_and?;
      try (by repeat match goal with IH : _ -> stored _ = _ |- _ => rewrite IH by done; clear IH end).
    - by destruct b.
    - apply bool_decide_eq_true in H. by rewrite H.
    - f_equal. induction IH as [|g l Hg Hl IHl]; simpl in *; [done|].
      apply andb_true_iff in H as [H1 H2]. by rewrite Hg, IHl.
    - f_equal. induction IH as [|g l Hg Hl IHl]; simpl in *; [done|].
      apply andb_true_iff in H as [H1 H2]. by rewrite Hg, IHl.
    - f_equal. induction IH as [|g l Hg Hl IHl]; simpl in *; [done|].
      apply andb_true_iff in H as [H1 H2]. by rewrite Hg, IHl.
    - f_equal. induction IH as [|g l Hg Hl IHl]; simpl in *; [done|].
      apply andb_true_iff in H as [H1 H2]. by rewrite Hg, IHl.
  Qed.

  Lemma roundtrip f :
    storable f = true -> wf_fm f = true -> typeof f <> None ->
    exists s f', print f = Ok s /\ nested_to_smt read s = Ok f' /\
                 typeof f' = typeof f /\ fequiv f' (stored f).
  Proof.
    intros Hs Hw Ht. destruct (print_text f Hs) as (s & Hp & Htx).
    exists s, (reparse f). split; [done|].
    split; [|split; [by apply typeof_reparse|]].
    2:{ intros e. by apply eval_reparse. }
    pose proof (ptree_ok f Hs) as Hok.
    assert (spaced (words (ptree f)) s) as Hsp.
    { rewrite <- (app_nil_r (words _)), <- (append_nil_r s). apply Htx; [done|]. by constructor. }
    destruct (ptree_is_op f) as (op & args & Hop).
    unfold nested_to_smt. rewrite Hop in Hok, Hsp.
    rewrite (parse_tree_text _ _ _ _ Hok Hsp), <- Hop. cbn [rbind].
    by apply rd_ptree.
  Qed.
End RoundTrip.

Lemma roundtrip_exact read to_float show show_int f :
  float_ok read to_float show ->
  storable to_float f = true -> wf_fm f = true -> typeof f <> None ->
  exact_consts to_float f = true ->
  exists s f', smt_to_nested to_float show show_int f = Ok s /\ nested_to_smt read s = Ok f' /\
               typeof f' = typeof f /\ fequiv f' f.
Proof.
  intros H1 H2 H3 H4 H5.
  destruct (roundtrip read to_float show show_int H1 f H2 H3 H4) as (s & f' & Ha & Hb & Hc & Hd).
  exists s, f'. rewrite (stored_exact to_float f H5) in Hd. done.
Qed.

(** ** Where the round trip fails *)

Lemma false_reads_true read to_float show show_int :
  exists s, smt_to_nested to_float show show_int (BoolC false) = Ok s /\
            nested_to_smt read s = Ok (BoolC true).
Proof. eexists; split; reflexivity. Qed.

Lemma dyadic_third : ~ dyadic (Q2Qc (1 # 3)).
Proof.
  intros (m & k & H).
  assert (qpow (qz 2) k = qz (2 ^ Z.of_nat k)) as Hk.
  { clear. induction k as [|k IH]; [done|]. cbn [qpow]. rewrite IH.
    rewrite Nat2Z.inj_succ, Z.pow_succ_r by lia. apply Qc_is_canon. unfold qz. simpl.
    rewrite !Qred_correct. by rewrite inject_Z_mult. }
  rewrite Hk in H. apply Qc_eq_this in H. unfold qz, Qcmult in H.
  cbn [this Q2Qc] in H. rewrite !Qred_correct in H.
  unfold Qeq in H. simpl in H.
  assert (2 ^ Z.of_nat k = 3 * m)%Z as H' by lia. clear H Hk.
  assert (forall k : nat, ~ exists m, (2 ^ Z.of_nat k = 3 * m)%Z) as Hno.
  { clear. induction k as [|k IH]; intros [m H].
    - change (2 ^ Z.of_nat 0)%Z with 1%Z in H. lia.
    - rewrite Nat2Z.inj_succ, Z.pow_succ_r in H by lia. apply IH.
      exists (2 * m - 2 ^ Z.of_nat k)%Z. lia. }
  by apply (Hno k); exists m.
Qed.

Lemma third_changes read to_float show show_int s f' :
  float_ok read to_float show ->
  (forall q r, to_float q = Some r -> dyadic r) ->
  smt_to_nested to_float show show_int (RealC (Q2Qc (1 # 3))) = Ok s ->
  nested_to_smt read s = Ok f' -> ~ fequiv f' (RealC (Q2Qc (1 # 3))).
Proof.
  intros Hfl Hd Hp Hn He.
  assert (exists r, to_float (Q2Qc (1 # 3)) = Some r) as [r Hr].
  { cbn [smt_to_nested] in Hp. destruct (to_float (Q2Qc (1 # 3))); [eauto|done]. }
  destruct (roundtrip read to_float show show_int Hfl (RealC (Q2Qc (1 # 3))))
    as (s' & f'' & Ha & Hb & _ & Hc); [|done|done|].
  { cbn [storable]. by rewrite Hr. }
  assert (s' = s) as -> by congruence. assert (f'' = f') as -> by congruence.
  pose (e := Env (fun _ => false) (fun _ => 0%Qc)).
  specialize (He e). specialize (Hc e). rewrite He in Hc. cbn [eval stored] in Hc.
  rewrite Hr in Hc. injection Hc as Hc. apply dyadic_third. rewrite Hc. by eapply Hd.
Qed.

(** An integer variable is written but cannot be read back. *)
Lemma int_var_rejected read to_float show show_int :
  exists s e, smt_to_nested to_float show show_int (Sym "n" TInt) = Ok s /\
            nested_to_smt read s = Err e.
Proof. do 2 eexists; split; reflexivity. Qed.

(** * Wrong number of arguments *)

Lemma ast_bad_arity read op ch n :
  arity_of op = Some n -> length ch <> n -> exists e, ast_to_smt read (Node (Some op) ch) = Err e.
Proof.
  intros Ha Hl. unfold arity_of in Ha.
  assert (Hcv : forall names : list (option string), length names <> 2 ->
     exists e, parse_const read names = Err e).
  { intros [|a [|b [|c l]]] H; simpl in *; eauto; lia. }
  assert (Hcw : forall names : list (option string), length names <> 2 ->
     exists e, parse_var names = Err e).
  { intros [|a [|b [|c l]]] H; simpl in *; eauto; lia. }
  case_bool_decide as H1; [|case_bool_decide as H2; [|case_bool_decide as H3; [|done]]];
    simplify_eq.
  all: repeat match goal with
              | H : _ ∈ _ :: _ |- _ => apply elem_of_cons in H as [->|H]
              | H : _ ∈ [] |- _ => by apply elem_of_nil in H
              end.
  all: cbn; unfold arity; try rewrite (proj2 (Nat.eqb_neq _ _) Hl); eauto.
  - apply Hcv. by rewrite map_length.
  - apply Hcw. by rewrite map_length.
Qed.

Lemma rmapM_err {A B} (f : A -> Res B) l x :
  x ∈ l -> (exists e, f x = Err e) -> exists e, rmapM f l = Err e.
Proof.
  induction l as [|y l IH]; intros Hx He; [by apply elem_of_nil in Hx|].
  rewrite rmapM_cons. destruct (f y) as [b|e] eqn:Hy; simpl; [|eauto].
  apply elem_of_cons in Hx as [->|Hx].
  - destruct He as [e He]. congruence.
  - destruct (IH Hx He) as [e ->]. simpl. eauto.
Qed.

Lemma ast_arg_err read op ch c :
  op <> "const" -> op <> "var" -> c ∈ ch -> (exists e, ast_to_smt read c = Err e) ->
  exists e, ast_to_smt read (Node (Some op) ch) = Err e.
Proof.
  intros H1 H2 Hc He. destruct (rmapM_err _ _ _ Hc He) as [e Hm].
  cbn [ast_to_smt]. unfold arity. rewrite Hm. cbn [rbind].
  repeat (destruct (decide _); [try done; try (destruct (_ =? _)); eauto|]). eauto.
Qed.

Lemma bad_arity_rejected read t :
  bad_arity t -> exists e, ast_to_smt read (as_node t) = Err e.
Proof.
  induction 1 as [op args n H1 H2|op args t H1 H2 H3 H4 IH].
  - cbn [as_node]. eapply ast_bad_arity; [done|]. by rewrite map_length.
  - cbn [as_node]. eapply ast_arg_err; [done|done| |exact IH].
    by apply elem_of_list_fmap_1.
Qed.

Lemma bad_arity_text read op args s :
  tree_ok smt_operators (Op op args) = true -> spaced (words (Op op args)) s ->
  bad_arity (Op op args) -> exists e, nested_to_smt read s = Err e.
Proof.
  intros H1 H2 H3. unfold nested_to_smt. rewrite (parse_tree_text _ _ _ _ H1 H2). cbn [rbind].
  by apply bad_arity_rejected.
Qed.

(** * The meaning of the operators *)

Lemma rmapM_children (read : string -> option Qc) l fs :
  rmapM (ast_to_smt read) (map as_node l) = Ok fs ->
  Forall2 (fun t f => ast_to_smt read (as_node t) = Ok f) l fs.
Proof.
  revert fs. induction l as [|t l IH]; intros fs H.
  - injection H as <-. constructor.
  - cbn [map] in H. rewrite rmapM_cons in H.
    destruct (ast_to_smt read (as_node t)) as [f|] eqn:Ht; [|done]. cbn [rbind] in H.
    destruct (rmapM (ast_to_smt read) (map as_node l)) as [fs'|]; [|done]. cbn in H.
    injection H as <-. constructor; [done|]. by apply IH.
Qed.

Lemma qpowz_nat x y n : nat_of_qc y = Some n -> qpowz x y = Some (qpow x n).
Proof.
  unfold nat_of_qc, qpowz. destruct (Pos.eqb (Qden (this y)) 1); [|done]. cbn [andb].
  destruct (0 <=? Qnum (this y))%Z; [|done]. by intros [= <-].
Qed.

Lemma mkPow_value e a b f x y n :
  mkPow a b = Ok f -> eval e a = Some (VN x) -> eval e b = Some (VN y) ->
  nat_of_qc y = Some n -> eval e f = Some (VN (qpow x n)).
Proof.
  intros Hf Ha Hb Hn. unfold mkPow in Hf.
  destruct (is_const b) eqn:Hc; [|done].
  assert (Hv : const_val b = Some y).
  { destruct b; try done; cbn in *; congruence. }
  assert (Hd : eval e (PowN a b) = Some (VN (qpow x n))).
  { cbn [eval]. rewrite Ha, Hb. cbn. by rewrite Hn. }
  rewrite Hv in Hf. destruct a; try (injection Hf as <-; exact Hd); try done.
  - injection Ha as ->. rewrite (qpowz_nat _ _ _ Hn) in Hf. by injection Hf as <-.
  - injection Ha as <-. rewrite (qpowz_nat _ _ _ Hn) in Hf. by injection Hf as <-.
Qed.

Lemma mkNot_value e a b : eval e a = Some (VB b) -> eval e (mkNot a) = Some (VB (negb b)).
Proof.
  intros Ha. assert (Hd : eval e (NotN a) = Some (VB (negb b))) by (cbn [eval]; by rewrite Ha).
  destruct a as [| | | | | |g| | | | | | | | | | | |]; try exact Hd.
  cbn [eval mkNot] in *. destruct (eval e g) as [[c|]|]; cbn in *; try done.
  injection Ha as <-. by rewrite negb_involutive.
Qed.

Lemma chk_ok f g : chk f = Ok g -> g = f.
Proof. unfold chk. destruct (typeof f); naive_solver. Qed.

Lemma ast_value read e t :
  forall f v, ast_to_smt read (as_node t) = Ok f -> tree_val read e t = Some v ->
  eval e f = Some v.
Proof.
  induction t as [w|op l IH] using tree_ind'; intros f v Hf Hv; [done|].
  assert (IH' : forall fs, Forall2 (fun t f => ast_to_smt read (as_node t) = Ok f) l fs ->
    Forall2 (fun t f => forall v, tree_val read e t = Some v -> eval e f = Some v) l fs).
  { intros fs H. clear Hf Hv. induction H; inversion IH; subst; constructor; eauto. }
  clear IH.
  assert (Hbools : forall fs bs, Forall2 (fun t f => ast_to_smt read (as_node t) = Ok f) l fs ->
    mapM (fun a => vbool (tree_val read e a)) l = Some bs ->
    Forall2 (fun g b => eval e g = Some (VB b)) fs bs).
  { intros fs bs H Hm. apply IH' in H. apply mapM_Some in Hm. clear -H Hm. revert bs Hm.
    induction H as [|t f l fs Ht H IHl]; intros bs Hm; inversion Hm; subst; constructor; [|eauto].
    destruct (tree_val read e t) as [[]|]; try done. cbn in *. apply Ht. congruence. }
  assert (Hnums : forall fs bs, Forall2 (fun t f => ast_to_smt read (as_node t) = Ok f) l fs ->
    mapM (fun a => vnum (tree_val read e a)) l = Some bs ->
    Forall2 (fun g b => eval e g = Some (VN b)) fs bs).
  { intros fs bs H Hm. apply IH' in H. apply mapM_Some in Hm. clear -H Hm. revert bs Hm.
    induction H as [|t f l fs Ht H IHl]; intros bs Hm; inversion Hm; subst; constructor; [|eauto].
    destruct (tree_val read e t) as [[]|]; try done. cbn in *. apply Ht. congruence. }
  cbn [as_node] in Hf.
  assert (Hone : forall k, arity 1 (map as_node l)
      (let! l := rmapM (ast_to_smt read) (map as_node l) in apply1 k l) = Ok f ->
      exists t g, l = [t] /\ k g = Ok f /\
        (forall v, tree_val read e t = Some v -> eval e g = Some v)).
  { intros k H. unfold arity in H. destruct (_ =? _)%nat; [|done].
    destruct (rmapM _ _) as [fs|] eqn:Hm; [|done]. apply rmapM_children in Hm.
    cbn [rbind] in H. destruct fs as [|g [|g2 fs]]; try done.
    apply IH' in Hm. inversion Hm as [|t g' l1 l2 H1 H2]; subst. inversion H2; subst. eauto. }
  assert (Htwo : forall k, arity 2 (map as_node l)
      (let! l := rmapM (ast_to_smt read) (map as_node l) in apply2 k l) = Ok f ->
      exists t u g h, l = [t; u] /\ k g h = Ok f /\
        (forall v, tree_val read e t = Some v -> eval e g = Some v) /\
        (forall v, tree_val read e u = Some v -> eval e h = Some v)).
  { intros k H. unfold arity in H. destruct (_ =? _)%nat; [|done].
    destruct (rmapM _ _) as [fs|] eqn:Hm; [|done]. apply rmapM_children in Hm.
    cbn [rbind] in H. destruct fs as [|g [|g2 [|g3 fs]]]; try done.
    apply IH' in Hm. inversion Hm as [|t g' l1 l2 H1 H2]; subst.
    inversion H2 as [|t' g'' l1' l2' H1' H2']; subst. inversion H2'; subst. eauto 10. }
  assert (Hnum : forall (k : fm -> fm -> Res fm) (j : Qc -> Qc -> option val),
    arity 2 (map as_node l)
      (let! l := rmapM (ast_to_smt read) (map as_node l) in apply2 k l) = Ok f ->
    (match l with
     | [a; b] => x ← vnum (tree_val read e a); y ← vnum (tree_val read e b); j x y
     | _ => None end) = Some v ->
    exists g h x y, k g h = Ok f /\ j x y = Some v /\
      eval e g = Some (VN x) /\ eval e h = Some (VN y)).
  { intros k j H Hj. destruct (Htwo _ H) as (t & u & g & h & -> & Hk & H1 & H2).
    destruct (tree_val read e t) as [[|x]|] eqn:E1; try done.
    destruct (tree_val read e u) as [[|y]|] eqn:E2; try done.
    exists g, h, x, y. split; [done|]. split; [exact Hj|]. split; [by apply H1|by apply H2]. }
  cbn [tree_val] in Hv.
  destruct (decide (op = "&")) as [->|_].
  { cbn -[mkAnd rmapM] in Hf. destruct (rmapM _ _) as [fs|] eqn:Hm; [|done]. apply rmapM_children in Hm.
    cbn -[mkAnd] in Hf. apply chk_ok in Hf as ->.
    apply fmap_Some in Hv as (bs & Hbs & ->). specialize (Hbools _ _ Hm Hbs).
    destruct Hbools as [|g b fs' bs' H1 H2]; [done|].
    destruct H2 as [|g2 b2 fs' bs' H2 H3].
    - cbn. by rewrite andb_true_r.
    - cbn [mkAnd eval]. apply fmap_Some. eexists. split; [|reflexivity].
      apply mapM_Forall2_vbool. by repeat constructor. }
  destruct (decide (op = "|")) as [->|_].
  { cbn -[mkOr rmapM] in Hf. destruct (rmapM _ _) as [fs|] eqn:Hm; [|done]. apply rmapM_children in Hm.
    cbn -[mkOr] in Hf. apply chk_ok in Hf as ->.
    apply fmap_Some in Hv as (bs & Hbs & ->). specialize (Hbools _ _ Hm Hbs).
    destruct Hbools as [|g b fs' bs' H1 H2]; [done|].
    destruct H2 as [|g2 b2 fs' bs' H2 H3].
    - cbn. by rewrite orb_false_r.
    - cbn [mkOr eval]. apply fmap_Some. eexists. split; [|reflexivity].
      apply mapM_Forall2_vbool. by repeat constructor. }
  destruct (decide (op = "~")) as [->|_].
  { destruct (Hone _ Hf) as (t & g & -> & Hg & Hval). cbn -[mkNot chk] in Hg.
    destruct (chk (NotN g)); [|done]. injection Hg as <-.
    destruct (tree_val read e t) as [[b|]|]; try done. cbn in Hv. injection Hv as <-.
    by apply mkNot_value, Hval. }
  destruct (decide (op = "->")) as [->|_]; [done|].
  destruct (decide (op = "ite")) as [->|_].
  { cbn -[rmapM apply3] in Hf. unfold arity in Hf. destruct (_ =? _)%nat; [|done].
    destruct (rmapM _ _) as [fs|] eqn:Hm; [|done]. apply rmapM_children in Hm.
    cbn [rbind] in Hf. destruct fs as [|g [|g2 [|g3 [|g4 fs]]]]; try done. apply IH' in Hm.
    inversion Hm as [|t g' l1 l2 H1 H2]; subst.
    inversion H2 as [|t2 g'' l1' l2' H3 H4]; subst.
    inversion H4 as [|t3 g''' l1'' l2'' H5 H6]; subst. inversion H6; subst.
    cbn [apply3] in Hf. apply chk_ok in Hf as ->. cbn [eval].
    destruct (tree_val read e t) as [[p|]|]; try done. rewrite (H1 _ eq_refl).
    destruct (tree_val read e t2) as [x|]; try done. rewrite (H3 _ eq_refl).
    destruct (tree_val read e t3) as [y|]; try done. by rewrite (H5 _ eq_refl). }
  destruct (decide (op = "+")) as [->|_].
  { cbn -[mkPlus rmapM] in Hf. destruct (rmapM _ _) as [fs|] eqn:Hm; [|done]. apply rmapM_children in Hm.
    cbn -[mkPlus] in Hf. unfold chk_res in Hf.
    destruct (mkPlus fs) as [g|] eqn:Hg; [|done]. cbn in Hf. apply chk_ok in Hf as ->.
    apply fmap_Some in Hv as (bs & Hbs & ->). specialize (Hnums _ _ Hm Hbs).
    destruct Hnums as [|g0 b fs' bs' H1 H2]; [done|].
    destruct H2 as [|g2 b2 fs' bs' H2 H3]; injection Hg as <-.
    - rewrite H1. cbn. do 2 f_equal. ring.
    - cbn [eval]. apply fmap_Some. eexists. split; [|reflexivity].
      apply mapM_Forall2_vnum. by repeat constructor. }
  destruct (decide (op = "*")) as [->|_].
  { cbn -[mkTimes rmapM] in Hf. destruct (rmapM _ _) as [fs|] eqn:Hm; [|done]. apply rmapM_children in Hm.
    cbn -[mkTimes] in Hf. unfold chk_res in Hf.
    destruct (mkTimes fs) as [g|] eqn:Hg; [|done]. cbn in Hf. apply chk_ok in Hf as ->.
    apply fmap_Some in Hv as (bs & Hbs & ->). specialize (Hnums _ _ Hm Hbs).
    destruct Hnums as [|g0 b fs' bs' H1 H2]; [done|].
    destruct H2 as [|g2 b2 fs' bs' H2 H3]; injection Hg as <-.
    - rewrite H1. cbn. do 2 f_equal. ring.
    - cbn [eval]. apply fmap_Some. eexists. split; [|reflexivity].
      apply mapM_Forall2_vnum. by repeat constructor. }
  destruct (decide (op = "-")) as [->|_].
  { destruct (Hnum _ _ Hf Hv) as (g & h & x & y & Hk & [= <-] & H1 & H2).
    apply chk_ok in Hk as ->. cbn [eval]. by rewrite H1, H2. }
  destruct (decide (op = "^")) as [->|_].
  { destruct (Hnum _ _ Hf Hv) as (g & h & x & y & Hk & Hn & H1 & H2). clear Hf Hv.
    destruct (nat_of_qc y) as [n|] eqn:Hy; [|done]. cbn in Hn. injection Hn as <-.
    unfold chk_res in Hk. destruct (mkPow g h) as [r|] eqn:Hp; [|done].
    cbn [rbind] in Hk. apply chk_ok in Hk as ->. by eapply mkPow_value. }
  destruct (decide (op = "<=")) as [->|_].
  { destruct (Hnum _ _ Hf Hv) as (g & h & x & y & Hk & [= <-] & H1 & H2).
    apply chk_ok in Hk as ->. cbn [eval]. by rewrite H1, H2. }
  destruct (decide (op = "<")) as [->|_].
  { destruct (Hnum _ _ Hf Hv) as (g & h & x & y & Hk & [= <-] & H1 & H2).
    apply chk_ok in Hk as ->. cbn [eval]. by rewrite H1, H2. }
  destruct (decide (op = ">=")) as [->|_].
  { destruct (Hnum _ _ Hf Hv) as (g & h & x & y & Hk & [= <-] & H1 & H2).
    apply chk_ok in Hk as ->. cbn [mkGE eval]. by rewrite H1, H2. }
  destruct (decide (op = ">")) as [->|_].
  { destruct (Hnum _ _ Hf Hv) as (g & h & x & y & Hk & [= <-] & H1 & H2).
    apply chk_ok in Hk as ->. cbn [mkGT eval]. by rewrite H1, H2. }
  destruct (decide (op = "=")) as [->|_].
  { destruct (Hnum _ _ Hf Hv) as (g & h & x & y & Hk & [= <-] & H1 & H2).
    apply chk_ok in Hk as ->. cbn [eval]. by rewrite H1, H2. }
  destruct (decide (op = "const")) as [->|_].
  { destruct l as [|[k|] [|[w|] [|]]]; try done. cbn -[decide] in Hf. unfold parse_const in Hf.
    destruct (decide (k = "real")) as [->|].
    - cbn in Hf. destruct (read w) as [q|]; [|done]. injection Hf as <-. exact Hv.
    - case_bool_decide as Hk; [|done]. subst k. case_bool_decide as Hw; [|done].
      cbn in Hv. simplify_eq.
      repeat (apply elem_of_cons in Hw as [->|Hw]; [cbn in Hf; by injection Hf as <-|]).
      by apply elem_of_nil in Hw. }
  destruct (decide (op = "var")) as [->|_]; [|done].
  destruct l as [|[k|] [|[w|] [|]]]; try done. cbn -[decide] in Hf. unfold parse_var in Hf.
  destruct (decide (k = "real")) as [->|].
  - cbn in Hf. injection Hf as <-. exact Hv.
  - destruct (decide (k = "bool")) as [->|]; [|done]. cbn in Hf. injection Hf as <-. exact Hv.
Qed.

Lemma text_value read op l s f e v :
  tree_ok smt_operators (Op op l) = true -> spaced (words (Op op l)) s ->
  nested_to_smt read s = Ok f -> tree_val read e (Op op l) = Some v -> eval e f = Some v.
Proof.
  intros Hok Hs Hf Hv. unfold nested_to_smt in Hf.
  rewrite (parse_tree_text _ _ _ _ Hok Hs) in Hf. cbn [rbind] in Hf. by eapply ast_value.
Qed.

Lemma combined_value read op t l s f w e :
  tree_ok smt_operators (Op op (t :: l)) = true -> spaced (words (Op op (t :: l))) s ->
  combined_nested_to_wmi read s = Ok (f, w) ->
  (forall v, tree_val read e t = Some v -> eval e f = Some v) /\
  (forall v, tree_val read e (Op op l) = Some v -> eval e w = Some v).
Proof.
  intros Hok Hs Hf. unfold combined_nested_to_wmi in Hf.
  rewrite (parse_tree_text _ _ _ _ Hok Hs) in Hf. cbn [rbind as_node map] in Hf.
  destruct (ast_to_smt read (as_node t)) as [f'|] eqn:H1; [|done]. cbn [rbind] in Hf.
  destruct (ast_to_smt read (Node _ _)) as [w'|] eqn:H2; [|done]. cbn [rbind] in Hf.
  simplify_eq. split; intros v Hv; [by eapply ast_value|].
  by eapply (ast_value read e (Op op l)).
Qed.
