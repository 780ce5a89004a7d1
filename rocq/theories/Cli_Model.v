(** Model of pywmi/__main__.py: parse_options and get_engine (the choice of the
    engine and of its options on the command line). *)

From Verif Require Import Base Dict.

(** The values options are given: int(...), strings, booleans, the triples of
    ResolveIntegrator (resolve.py:21-25) and the two algebras. *)
Inductive optval :=
| VInt (z : Z) | VStr (s : string) | VFlag (b : bool) | VReduce (init product sum : bool)
| VPsiAlgebra | VPyxaddAlgebra (init_only : bool).

(** str.startswith *)
Definition starts (p s : string) : bool := String.prefix p s.
(** s[1:] *)
Definition rest (s : string) : string := match s with EmptyString => EmptyString | String _ s => s end.
(** s.split(c) *)
Fixpoint split_on (c : ascii) (s : string) : list string :=
  match s with
  | EmptyString => [EmptyString]
  | String d s =>
      if ascii_dec d c then EmptyString :: split_on c s
      else match split_on c s with
           | [] => [String d EmptyString]
           | w :: ws => String d w :: ws
           end
  end.
(** s.lower(); only the ASCII letters *)
Definition lower_ascii (c : ascii) : ascii :=
  let n := nat_of_ascii c in
  if (65 <=? n)%nat && (n <=? 90)%nat then ascii_of_nat (n + 32) else c.
Fixpoint lower (s : string) : string :=
  match s with EmptyString => EmptyString | String c s => String (lower_ascii c) (lower s) end.

Section Options.
  (** Python's int(text) *)
  Variable py_int : string -> option Z.
  Definition to_int (s : string) : Res Z :=
    match py_int s with Some z => Ok z | None => Err ValueError end.

  (** __main__.py:39-95: one option string.  The name and value found ([None]: n is
      None) and the options set on the side. *)
  Definition parse_option (whitelist : list string) (o : string)
      : Res (option (string * optval) * list (string * optval)) :=
    let allowed n : bool := bool_decide (n ∈ whitelist) in
    let int_option n := let! z := to_int (rest o) in Ok (Some (n, VInt z), []) in
    let str_option n := Ok (Some (n, VStr (rest o)), []) in
    let flag n := Ok (Some (n, VFlag true), []) in
    if starts "t" o then int_option "timeout"%string
    else if starts "s" o && allowed "seed"%string then int_option "seed"%string
    else if starts "n" o then int_option "sample_count"%string
    else if starts "m" o then str_option "mode"%string
    else if starts "r" o && allowed "reduce"%string then
      if bool_decide (rest o = "init_only"%string) then Ok (Some ("reduce_strategy"%string, VReduce true false false), [])
      else if bool_decide (rest o = "full"%string) then Ok (Some ("reduce_strategy"%string, VReduce true true true), [])
      else if bool_decide (rest o = "none"%string) then Ok (Some ("reduce_strategy"%string, VReduce false false false), [])
      else Ok (None, [])
    else if starts "b" o && allowed "backend"%string then str_option "backend"%string
    else if starts "b" o && allowed "sample_count_build"%string then int_option "sample_count_build"%string
    else if starts "v" o && allowed "balance"%string then str_option "balance"%string
    else if bool_decide (o = "min"%string) && allowed "minimize"%string then flag "minimize"%string
    else if bool_decide (o = "pint"%string) then flag "pint"%string
    else if starts "factorized" o || starts "unfactorized" o then
      let nv := Some ("factorized"%string, VFlag (starts "factorized" o)) in
      match split_on "."%char o with
      | _ :: algebra :: more =>
          if allowed "factorized"%string then
            if bool_decide (algebra = "psi"%string) then Ok (nv, [("algebra"%string, VPsiAlgebra)])
            else if bool_decide (algebra = "pyxadd"%string) then
              let init_only := match more with strategy :: _ => bool_decide (strategy = "int_init_only"%string) | [] => false end in
              Ok (nv, [("algebra"%string, VPyxaddAlgebra init_only)])
            else Err ValueError
          else Ok (nv, [])
      | _ => Ok (nv, [])
      end
    else if bool_decide (o = "prune"%string) then flag "find_conflicts"%string
    else if bool_decide (o = "order"%string) then flag "ordered"%string
    else if bool_decide (o = "collapse"%string) then flag "collapse"%string
    else if bool_decide (o = "cache"%string) then flag "cache"%string
    else if bool_decide (o = "repeated"%string) then flag "repeated"%string
    else Err ValueError.

  (** __main__.py:33-100 parse_options.  (The warning about an ignored option is left
      out.) *)
  Fixpoint parse_loop (whitelist : list string) (os : list string) (options : list (string * optval))
      : Res (list (string * optval)) :=
    match os with
    | [] => Ok options
    | o :: os =>
        let! (nv, side) := parse_option whitelist o in
        let options := fold_left (fun d kv => dset d kv.1 kv.2) side options in
        let options := match nv with
                       | Some (n, v) => if bool_decide (n ∈ whitelist) then dset options n v else options
                       | None => options
                       end in
        parse_loop whitelist os options
    end.
  Definition parse_options (os whitelist : list string) : Res (list (string * optval)) := parse_loop whitelist os [].

  (** The engine classes, the integrators given to XsddEngine, and a constructed
      engine: its class and the keyword arguments it was built with. *)
  Inductive engine_class := PA | MP | REJ | ADAPT | XADD | PYXADD | PRAISE | XSDD.
  Inductive integrator := RejInt (n bounding_box : Z) (seed : option Z) | XaddInt (mode : option string) | LatteInt.
  Record engine := Engine { e_class : engine_class; e_options : list (string * optval); e_backend : option integrator }.

  (** The keyword parameters of the constructors and those without default:
      pa.py:26, mpwmi.py:34, rejection.py:29, adaptive_rejection.py:271-272,
      xadd.py:23, pyxadd/engine.py:127-135, praise.py:39, xsdd/engine.py:130-143,
      282-291. *)
  Definition parameters (c : engine_class) : list string * list string :=
    match c with
    | PA => (["directory"; "timeout"], [])
    | MP => (["cache"], [])
    | REJ => (["sample_count"; "seed"], ["sample_count"])
    | ADAPT => (["sample_count"; "sample_count_build"; "stop_criterion"; "split_criterion"; "seed"], ["sample_count"])
    | XADD => (["mode"; "timeout"], [])
    | PYXADD => (["pool"; "reduce_strategy"; "algebra"], [])
    | PRAISE => ([], [])
    | XSDD => (["algebra"; "find_conflicts"; "ordered"; "vtree_strategy"; "minimize"], [])
    end%string.
  (** Calling the constructor: an unexpected or missing argument is a TypeError.
      (Failures to find installed libraries are left out.) *)
  Definition construct (c : engine_class) (options : list (string * optval)) (b : option integrator) : Res engine :=
    let '(accepted, required) := parameters c in
    if forallb (fun n => bool_decide (n ∈ accepted)) (dkeys options) &&
       forallb (fun n => bool_decide (n ∈ dkeys options)) required
    then Ok (Engine c options b) else Err TypeError.

  (** __main__.py:138-160: the integrator of XsddEngine *)
  Definition get_backend (s : string) : Res integrator :=
    match split_on "."%char s with
    | kind :: args =>
        if bool_decide (kind = "rej"%string) then
          let! bb := match args with _ :: a :: _ => to_int a | _ => Ok 0%Z end in
          let! seed := match args with _ :: _ :: a :: _ => let! z := to_int a in Ok (Some z) | _ => Ok None end in
          match args with
          | n :: _ => let! z := to_int n in Ok (RejInt z bb seed)
          | [] => Err IndexError                                       (* parts[1] *)
          end
        else if bool_decide (kind = "xadd"%string) then
          Ok (XaddInt (match args with a :: _ => Some a | [] => None end))
        else if bool_decide (kind = "latte"%string) then Ok LatteInt
        else Err ValueError
    | [] => Err IndexError
    end.

  (** __main__.py:103-167 get_engine; [None]: no engine has that name *)
  Definition get_engine (description : string) : Res (option engine) :=
    match split_on ":"%char description with
    | [] => Err IndexError
    | name :: os =>
        let name := lower name in
        let simple c (whitelist : list string) :=
          let! options := parse_options os whitelist in
          let! e := construct c options None in Ok (Some e) in
        if bool_decide (name = "pa"%string) then simple PA ["timeout"%string]
        else if bool_decide (name = "mpwmi"%string) then simple MP ["cache"%string]
        else if bool_decide (name = "rej"%string) then simple REJ ["sample_count"; "seed"]%string
        else if bool_decide (name = "adapt"%string) then simple ADAPT ["sample_count"; "seed"]%string
        else if bool_decide (name = "xadd"%string) then simple XADD ["mode"; "timeout"]%string
        else if bool_decide (name = "pyxadd"%string) then simple PYXADD ["reduce"%string]
        else if bool_decide (name = "praise"%string) then let! e := construct PRAISE [] None in Ok (Some e)
        else if bool_decide (name = "xsdd"%string) then
          let! options := parse_options os ["backend"; "factorized"; "find_conflicts"; "ordered"; "balance"; "minimize"]%string in
          let! b := match dget options "backend"%string with
                    | Some (VStr s) => let! b := get_backend s in Ok (Some b)
                    | _ => Ok None
                    end in
          let! e := construct XSDD (ddel options "backend"%string) b in Ok (Some e)
        else Ok None
    end.
End Options.
