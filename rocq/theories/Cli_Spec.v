(** Vocabulary for C53: which command line option names which engine option. *)

From Verif Require Import Base Dict Cli_Model.

Section Spec.
  Variable py_int : string -> option Z.

  (** [option_of o n v]: the option string [o] asks for the engine option [n] with
      value [v]. *)
  Inductive option_of : string -> string -> optval -> Prop :=
  | oo_timeout s z : py_int s = Some z -> option_of ("t" ++ s) "timeout" (VInt z)
  | oo_seed s z : py_int s = Some z -> option_of ("s" ++ s) "seed" (VInt z)
  | oo_samples s z : py_int s = Some z -> option_of ("n" ++ s) "sample_count" (VInt z)
  | oo_mode s : option_of ("m" ++ s) "mode" (VStr s)
  | oo_backend s : option_of ("b" ++ s) "backend" (VStr s)
  | oo_build s z : py_int s = Some z -> option_of ("b" ++ s) "sample_count_build" (VInt z)
  | oo_balance s : option_of ("v" ++ s) "balance" (VStr s)
  | oo_min : option_of "min" "minimize" (VFlag true)
  | oo_pint : option_of "pint" "pint" (VFlag true)
  | oo_fact : option_of "factorized" "factorized" (VFlag true)
  | oo_unfact : option_of "unfactorized" "factorized" (VFlag false)
  | oo_prune : option_of "prune" "find_conflicts" (VFlag true)
  | oo_order : option_of "order" "ordered" (VFlag true)
  | oo_collapse : option_of "collapse" "collapse" (VFlag true)
  | oo_cache : option_of "cache" "cache" (VFlag true)
  | oo_repeated : option_of "repeated" "repeated" (VFlag true)
  | oo_full : option_of "rfull" "reduce_strategy" (VReduce true true true)
  | oo_init : option_of "rinit_only" "reduce_strategy" (VReduce true false false)
  | oo_none : option_of "rnone" "reduce_strategy" (VReduce false false false).
End Spec.

(** [backend_of words b]: the words between the dots of a b option ask for the
    integrator [b]: rej.samples, rej.samples.box, rej.samples.box.seed, xadd,
    xadd.mode and latte. *)
Inductive backend_of (py_int : string -> option Z) : list string -> integrator -> Prop :=
| bo_rej n z : py_int n = Some z -> backend_of py_int ["rej"; n]%string (RejInt z 0 None)
| bo_rej_box n z b k : py_int n = Some z -> py_int b = Some k ->
    backend_of py_int ["rej"; n; b]%string (RejInt z k None)
| bo_rej_seed n z b k s i : py_int n = Some z -> py_int b = Some k -> py_int s = Some i ->
    backend_of py_int ["rej"; n; b; s]%string (RejInt z k (Some i))
| bo_xadd : backend_of py_int ["xadd"]%string (XaddInt None)
| bo_xadd_mode m : backend_of py_int ["xadd"; m]%string (XaddInt (Some m))
| bo_latte : backend_of py_int ["latte"]%string LatteInt.

(** The last value given to [n]. *)
Definition last_value (l : list (string * optval)) (n : string) : option optval :=
  option_map snd (last (filter (fun kv => kv.1 = n) l)).

(** The options the parser cannot confuse with another one. *)
Definition parsed (whitelist : list string) (n : string) : Prop :=
  n ∈ whitelist /\ n <> "minimize"%string /\ (n = "reduce_strategy"%string -> "reduce"%string ∈ whitelist) /\
  (n = "sample_count_build"%string -> "backend"%string ∉ whitelist) /\
  (n = "repeated"%string -> "reduce"%string ∉ whitelist).

(** The engine a description names and the options that reach it. *)
Definition reaches (name : string) : option (engine_class * list string) :=
  if decide (name = "pa"%string) then Some (PA, ["timeout"%string])
  else if decide (name = "mpwmi"%string) then Some (MP, ["cache"%string])
  else if decide (name = "rej"%string) then Some (REJ, ["sample_count"; "seed"]%string)
  else if decide (name = "adapt"%string) then Some (ADAPT, ["sample_count"; "seed"]%string)
  else if decide (name = "xadd"%string) then Some (XADD, ["mode"; "timeout"]%string)
  else if decide (name = "xsdd"%string) then Some (XSDD, ["find_conflicts"; "ordered"]%string)
  else None.
