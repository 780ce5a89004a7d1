(** Model of pywmi/engine.py and pywmi/temp.py. *)

From Verif Require Import Base Dict Smt Domain_Model.

(** * Probabilities *)

Section probabilities.
  (** The engine's [compute_volume] for a given support (domain, weight and
      [add_bounds] fixed). *)
  Variable vol : fm -> Res Qc.

  (** engine.py:53-55 Engine.with_constraint: the new support. *)
  Definition with_constraint (support query : fm) : fm := AndN [support; query].

  (** engine.py:29-33 Engine.compute_probabilities. *)
  Definition compute_probabilities (support : fm) (queries : list fm) : Res (list (option Qc)) :=
    let! volume := vol support in
    rmapM (fun query =>
      if qlt 0 volume then
        let! v := vol (with_constraint support query) in Ok (Some (v / volume)%Qc)
      else Ok None) queries.

  (** engine.py:35-37 Engine.compute_probability. *)
  Definition compute_probability (support query : fm) : Res (option Qc) :=
    let! ps := compute_probabilities support [query] in
    match ps with p :: _ => Ok p | [] => Err IndexError end.
End probabilities.

(** * Evidence *)

(** pysmt's [FNode.substitute] for boolean symbols: every occurrence is replaced and
    the formula rebuilt.  The rebuilt nodes have the same arities, so that only the
    removal of double negations remains of the constructors' simplifications. *)
Fixpoint subst (s : list (string * bool)) (f : fm) : fm :=
  match f with
  | Sym n TBool => match dget s n with Some b => BoolC b | None => f end
  | Sym _ _ | BoolC _ | RealC _ | IntC _ => f
  | AndN l => AndN (map (subst s) l)
  | OrN l => OrN (map (subst s) l)
  | NotN a => mkNot (subst s a)
  | ImpN a b => ImpN (subst s a) (subst s b)
  | IffN a b => IffN (subst s a) (subst s b)
  | IteN c a b => IteN (subst s c) (subst s a) (subst s b)
  | PlusN l => PlusN (map (subst s) l)
  | MinusN a b => MinusN (subst s a) (subst s b)
  | TimesN l => TimesN (map (subst s) l)
  | PowN a b => PowN (subst s a) (subst s b)
  | LeN a b => LeN (subst s a) (subst s b)
  | LtN a b => LtN (subst s a) (subst s b)
  | EqN a b => EqN (subst s a) (subst s b)
  | ExpN a => ExpN (subst s a)
  | ToRealN a => ToRealN (subst s a)
  end.

(** engine.py:42-46: the assertions on the evidence dictionary.  A constant that is
    not boolean would be rejected by pysmt's type check when it is put in place of a
    boolean symbol. *)
Definition check_evidence (p : fm * fm) : Res (string * bool) :=
  match p with
  | (Sym n TBool, BoolC b) => Ok (n, b)
  | (Sym n TBool, RealC _) | (Sym n TBool, IntC _) => Err PysmtTypeError
  | _ => Err AssertionError
  end.

Section evidence.
  (** pysmt's [simplify]. *)
  Variable simp : fm -> fm.

  (** engine.py:39-51 Engine.with_evidence: the arguments of the new engine. *)
  Definition with_evidence (d : domain) (support weight : fm) (substitutions : list (fm * fm)) :
      Res (domain * fm * fm) :=
    let! s := rmapM check_evidence substitutions in
    let variables := filter (fun v => v ∉ map fst s) (d_vars d) in
    let! types := rmapM (fun v => let! t := ditem (d_types d) v in Ok (v, t)) variables in
    Ok (Dom variables (set_all [] types) (d_doms d), subst s support, simp (subst s weight)).
End evidence.

(** * Temporary files *)

(** Files with their contents, and the number of open descriptors. *)
Record world := World { files : string -> option string; fds : nat }.

Definition set_file (n : string) (c : option string) (w : world) : world :=
  World (fun m => if decide (m = n) then c else files w m) (fds w).

Section temp.
  (** The name chosen by [tempfile.mkstemp]. *)
  Variable fresh : (string -> option string) -> string.
  (** The callback: acts on the world and may raise. *)
  Variable callback : option (string -> world -> world * Res unit).

  (** temp.py:13-18 TemporaryFile.__enter__.  The object is its [tmp_filename].  The
      descriptor returned by mkstemp is never closed. *)
  Definition enter (w : world) : world * option string * Res string :=
    let n := fresh (files w) in
    let w1 := World (files (set_file n (Some "") w)) (S (fds w)) in
    match callback with
    | None => (w1, Some n, Ok n)
    | Some cb => let '(w2, r) := cb n w1 in
                 (w2, Some n, match r with Ok _ => Ok n | Err e => Err e end)
    end.

  (** temp.py:20-22 TemporaryFile.__exit__ (returns None: exceptions propagate). *)
  Definition exit (obj : option string) (w : world) : world :=
    match obj with
    | Some n => match files w n with Some _ => set_file n None w | None => w end
    | None => w
    end.

  (** Python's with statement: [__exit__] runs iff [__enter__] returned. *)
  Definition with_block {A} (body : string -> world -> world * Res A) (w : world) : world * Res A :=
    let '(w1, obj, r) := enter w in
    match r with
    | Err e => (w1, Err e)
    | Ok n => let '(w2, a) := body n w1 in (exit obj w2, a)
    end.

  (** The same object entered again inside its own block: the second [__enter__]
      overwrites [tmp_filename], and both [__exit__]s see the new name. *)
  Definition with_twice (w : world) : world :=
    let '(w1, _, _) := enter w in
    let '(w2, obj, _) := enter w1 in
    exit obj (exit obj w2).
End temp.
