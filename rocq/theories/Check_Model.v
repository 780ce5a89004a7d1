(** Model of pywmi/smt_check.py: evaluation of formulas on an assignment, on one
    sample and on a table of samples.

    Numbers are exact rationals ([float(...)] is the identity); a power with an
    exponent that is not an integer is not modelled (reported as a failure). *)

From Verif Require Import Base Smt Walk_Model.

(** Python's [bool(x)] and the numeric value of a bool or float. *)
Definition truth (v : val) : bool :=
  match v with VB b => b | VN q => negb (qeq q 0) end.
Definition pynum (v : val) : Qc :=
  match v with VB b => if b then 1%Qc else 0%Qc | VN q => q end.

Definition pypow (x y : val) : Res val :=
  match qpowz (pynum x) (pynum y) with
  | Some q => Ok (VN q) | None => Err ZeroDivisionError end.

Definition pyadd (x y : val) : val := VN (pynum x + pynum y)%Qc.
Definition pymul (x y : val) : val := VN (pynum x * pynum y)%Qc.
Definition pysum (l : list val) : val := fold_left pyadd l (VN 0%Qc).

Definition as_ty (t : ty) (q : Qc) : Res val :=
  match t with
  | TBool => Ok (VB (negb (qeq q 0)))
  | TReal | TInt => Ok (VN q)
  end.

(** * SmtChecker (smt_check.py:7-65) and SmtSingleChecker (139-197)

    The two classes differ in [walk_ite] (lazy / eager) and in [walk_symbol]. *)
Section Scalar.
  Variable lazy_ite : bool.
  Variable symbol : string -> ty -> Res val.

  Definition scalar_walker : walker (Res val) := {|
    w_and rec l := let! vs := rmapM rec l in Ok (VB (forallb truth vs));
    w_or rec l := let! vs := rmapM rec l in Ok (VB (existsb truth vs));
    w_plus rec l := let! vs := rmapM rec l in Ok (pysum vs);
    w_minus rec a b :=
      let! x := rec a in let! y := rec b in Ok (VN (pynum x - pynum y)%Qc);
    w_times rec l :=
      match l with
      | [] => Err RuntimeErr
      | _ => let! vs := rmapM rec l in Ok (fold_left pymul vs (VN 1%Qc))
      end;
    w_not rec a := let! x := rec a in Ok (VB (negb (truth x)));
    w_ite rec c a b :=
      if lazy_ite then let! x := rec c in if truth x then rec a else rec b
      else let! x := rec c in let! y := rec a in let! z := rec b in
           Ok (if truth x then y else z);
    w_pow rec a b := let! x := rec a in let! y := rec b in pypow x y;
    w_lte rec a b := let! x := rec a in let! y := rec b in Ok (VB (qle (pynum x) (pynum y)));
    w_lt rec a b := let! x := rec a in let! y := rec b in Ok (VB (qlt (pynum x) (pynum y)));
    w_equals rec a b := let! x := rec a in let! y := rec b in Ok (VB (qeq (pynum x) (pynum y)));
    w_symbol n t := symbol n t;
    w_const f := match f with
                 | BoolC b => Ok (VB b) | RealC q => Ok (VN q) | _ => Err RuntimeErr end;
    w_cannot := Err RuntimeErr;
    w_fuel := Err OutOfFuel
  |}.
End Scalar.

(** smt_check.py:26-39 SmtChecker.walk_symbol: the assignment maps names to
    Python bools (for BOOL) or numbers; a bool symbol assigned a plain number has
    no [constant_value] (AttributeError); integer symbols are not supported. *)
Definition assignment_symbol (asg : string -> option val) (n : string) (t : ty) : Res val :=
  match asg n with
  | None => Err KeyError
  | Some v =>
      match t, v with
      | TBool, VB b => Ok (VB b)
      | TBool, VN _ => Err AttributeError
      | TReal, _ => Ok (VN (pynum v))
      | TInt, _ => Err RuntimeErr
      end
  end.

(** smt_check.py:200-201 evaluate_assignment *)
Definition evaluate_assignment (f : fm) (asg : string -> option val) : Res val :=
  walk (scalar_walker true (assignment_symbol asg)) (msize f) f.

(** [{v: i for i, v in enumerate(domain.variables)}]: the last occurrence wins. *)
Fixpoint index_from (i : nat) (vars : list string) (x : string) : option nat :=
  match vars with
  | [] => None
  | v :: vs =>
      match index_from (S i) vs x with
      | Some j => Some j
      | None => if decide (v = x) then Some i else None
      end
  end.
Definition index_of (vars : list string) (x : string) : option nat := index_from 0 vars x.

(** smt_check.py:183-187 SmtSingleChecker.walk_symbol *)
Definition sample_symbol (vars : list string) (values : list Qc) (n : string) (t : ty) : Res val :=
  match index_of vars n with
  | None => Err KeyError
  | Some i => match values !! i with None => Err IndexError | Some q => as_ty t q end
  end.

Definition check_single (vars : list string) (values : list Qc) (f : fm) : Res val :=
  walk (scalar_walker false (sample_symbol vars values)) (msize f) f.

(** * SmtBatchChecker (smt_check.py:68-137)

    numpy arrays live in a heap (list of cells, allocation appends).  The first
    [length vars] cells are the columns of the caller's table ([values[:, i]] is
    a view of the table, not a copy).  [trace] records every return of
    [walk_smt] and every in-place write. *)
Definition ref := nat.
Inductive event := Ret (r : ref) | Wr (r : ref).
Record st := St { heap : list (list val); cache : list (fm * ref); trace : list event }.

Definition M (A : Type) : Type := st -> st * Res A.
Definition mret {A} (a : A) : M A := fun s => (s, Ok a).
Definition merr {A} (e : exn) : M A := fun s => (s, Err e).
Definition mbind {A B} (m : M A) (k : A -> M B) : M B :=
  fun s => let '(s', r) := m s in match r with Ok a => k a s' | Err e => (s', Err e) end.
Notation "'do!' x := m 'in' k" := (mbind m (fun x => k))
  (at level 200, x pattern, m at level 100, k at level 200, right associativity).

Definition mmapM {A B} (f : A -> M B) : list A -> M (list B) :=
  fix go (l : list A) : M (list B) :=
    match l with
    | [] => mret []
    | x :: xs => do! y := f x in do! ys := go xs in mret (y :: ys)
    end.

(** numpy: new array, contents of an array, in-place update. *)
Definition alloc (a : list val) : M ref := fun s =>
  (St (heap s ++ [a]) (cache s) (trace s), Ok (length (heap s))).
Definition read (r : ref) : M (list val) := fun s =>
  match heap s !! r with Some a => (s, Ok a) | None => (s, Err RuntimeErr) end.
Definition write (r : ref) (a : list val) : M () := fun s =>
  (St (<[r := a]> (heap s)) (cache s) (trace s ++ [Wr r]), Ok ()).

(** Elementwise operation; arrays of different length do not broadcast here
    (numpy: ValueError). *)
Fixpoint zipM (op : val -> val -> Res val) (a b : list val) : Res (list val) :=
  match a, b with
  | [], [] => Ok []
  | x :: a, y :: b => let! z := op x y in let! r := zipM op a b in Ok (z :: r)
  | _, _ => Err ValueError
  end.
Definition lift {A} (r : Res A) : M A := fun s => (s, r).

(** A binary numpy operator on two arrays: a new array. *)
Definition nbin (op : val -> val -> Res val) (a b : ref) : M ref :=
  do! x := read a in do! y := read b in do! z := lift (zipM op x y) in alloc z.
(** In-place version. *)
Definition nbin_ip (op : val -> val -> Res val) (a b : ref) : M () :=
  do! x := read a in do! y := read b in do! z := lift (zipM op x y) in write a z.

(** [|] and [&] are defined on boolean arrays only. *)
Definition np_or (x y : val) : Res val :=
  match x, y with VB a, VB b => Ok (VB (a || b)) | _, _ => Err TypeError end.
Definition np_and (x y : val) : Res val :=
  match x, y with VB a, VB b => Ok (VB (a && b)) | _, _ => Err TypeError end.

Fixpoint accumulate (op : val -> val -> Res val) (acc : ref) (rs : list ref) : M () :=
  match rs with
  | [] => mret ()
  | r :: rs => do! _ := nbin_ip op acc r in accumulate op acc rs
  end.

Fixpoint nsum (acc : ref) (rs : list ref) : M ref :=
  match rs with
  | [] => mret acc
  | r :: rs => do! s := nbin (fun x y => Ok (pyadd x y)) acc r in nsum s rs
  end.

Fixpoint npwhere (c a b : list val) : Res (list val) :=
  match c, a, b with
  | [], [], [] => Ok []
  | x :: c, y :: a, z :: b => let! r := npwhere c a b in Ok ((if truth x then y else z) :: r)
  | _, _, _ => Err ValueError
  end.

Section Batch.
  Variable vars : list string.     (* domain.variables *)
  Variable len : nat.              (* values.shape[0] *)
  Variable two_d : bool.           (* values.ndim = 2; else values[:, i] raises IndexError *)

  Definition batch_walker : walker (M ref) := {|
    (* 89-94: np.copy(args[0]); result &= args[i] *)
    w_and rec l :=
      do! rs := mmapM rec l in
      match rs with
      | [] => merr IndexError
      | r0 :: rs => do! a := read r0 in do! acc := alloc a in
                    do! _ := accumulate np_and acc rs in mret acc
      end;
    (* 82-87 *)
    w_or rec l :=
      do! rs := mmapM rec l in
      match rs with
      | [] => merr IndexError
      | r0 :: rs => do! a := read r0 in do! acc := alloc a in
                    do! _ := accumulate np_or acc rs in mret acc
      end;
    (* 105-106: sum(...), i.e. 0 + a0 + a1 ..., every + makes a new array *)
    w_plus rec l :=
      do! rs := mmapM rec l in
      match rs with
      | [] => merr TypeError             (* sum([]) is 0, not an array *)
      | r0 :: rs => do! a := read r0 in
                    do! s := alloc (map (pyadd (VN 0%Qc)) a) in nsum s rs
      end;
    w_minus rec a b :=
      do! x := rec a in do! y := rec b in
      nbin (fun x y => Ok (VN (pynum x - pynum y)%Qc)) x y;
    (* 111-117: aggregate = 1.0; the first *= makes a new array, later ones are in place *)
    w_times rec l :=
      match l with
      | [] => merr RuntimeErr
      | _ =>
        do! rs := mmapM rec l in
        match rs with
        | [] => merr RuntimeErr
        | r0 :: rs => do! a := read r0 in
                      do! acc := alloc (map (pymul (VN 1%Qc)) a) in
                      do! _ := accumulate (fun x y => Ok (pymul x y)) acc rs in mret acc
        end
      end;
    (* 79-80 *)
    w_not rec a := do! x := rec a in do! v := read x in
                   alloc (map (fun v => VB (negb (truth v))) v);
    (* 75-77 *)
    w_ite rec c a b :=
      do! x := rec c in do! y := rec a in do! z := rec b in
      do! vx := read x in do! vy := read y in do! vz := read z in
      do! r := lift (npwhere vx vy vz) in alloc r;
    w_pow rec a b := do! x := rec a in do! y := rec b in nbin pypow x y;
    w_lte rec a b := do! x := rec a in do! y := rec b in
                     nbin (fun x y => Ok (VB (qle (pynum x) (pynum y)))) x y;
    w_lt rec a b := do! x := rec a in do! y := rec b in
                    nbin (fun x y => Ok (VB (qlt (pynum x) (pynum y)))) x y;
    w_equals rec a b := do! x := rec a in do! y := rec b in
                    nbin (fun x y => Ok (VB (qeq (pynum x) (pynum y)))) x y;
    (* 122-126: np.copy(values[:, i]), and astype(bool) makes another array *)
    w_symbol n t :=
      match index_of vars n with
      | None => merr KeyError
      | Some i =>
          if negb two_d then merr IndexError else
          do! col := read i in
          do! c := alloc col in
          match t with
          | TBool => do! v := read c in alloc (map (fun v => VB (truth v)) v)
          | _ => mret c
          end
      end;
    (* 128-133 *)
    w_const f := match f with
                 | BoolC b => alloc (replicate len (VB b))
                 | RealC q => alloc (replicate len (VN q))
                 | _ => merr RuntimeErr
                 end;
    w_cannot := merr RuntimeErr;
    w_fuel := merr OutOfFuel
  |}.

  Fixpoint lookup_cache (c : list (fm * ref)) (f : fm) : option ref :=
    match c with
    | [] => None
    | (g, r) :: c => if decide (f = g) then Some r else lookup_cache c f
    end.

  (** smt_walk.py:98-110 CachedSmtWalker.walk_smt around the dispatcher. *)
  Definition cached (f : fm) (run : M ref) : M ref := fun s =>
    match lookup_cache (cache s) f with
    | Some r => (St (heap s) (cache s) (trace s ++ [Ret r]), Ok r)
    | None =>
        let '(s', res) := run s in
        match res with
        | Ok r => (St (heap s') ((f, r) :: cache s') (trace s' ++ [Ret r]), Ok r)
        | Err e => (s', Err e)
        end
    end.

  Fixpoint batch (n : nat) (f : fm) : M ref :=
    match n with
    | 0 => merr OutOfFuel
    | S n => cached f (dispatch batch_walker (batch n) f)
    end.
End Batch.

(** A table given by its columns; the checker is created per call. *)
Definition batch_init (columns : list (list Qc)) : st :=
  St (map (map VN) columns) [] [].

Definition check_batch (vars : list string) (len : nat) (columns : list (list Qc)) (f : fm)
  : st * Res ref := batch vars len true (msize f) f (batch_init columns).

(** smt_check.py:204-207 evaluate: a 1-dimensional array is one sample unless the
    domain has at most one variable. *)
Inductive ndarray :=
| Arr1 (values : list Qc)
| Arr2 (len : nat) (columns : list (list Qc)).

Inductive outcome := Scalar (v : val) | Array (a : list val).

Definition evaluate (vars : list string) (f : fm) (values : ndarray) : Res outcome :=
  match values with
  | Arr1 v =>
      if 1 <? length vars then let! x := check_single vars v f in Ok (Scalar x)
      else
        let '(s, r) := batch vars (length v) false (msize f) f (St [] [] []) in
        match r with
        | Ok i => match heap s !! i with Some a => Ok (Array a) | None => Err RuntimeErr end
        | Err e => Err e
        end
  | Arr2 len cols =>
      let '(s, r) := check_batch vars len cols f in
      match r with
      | Ok i => match heap s !! i with Some a => Ok (Array a) | None => Err RuntimeErr end
      | Err e => Err e
      end
  end.
