(** The tasks convert, normalize, plot and print of the command line (pywmi/__main__.py), writing and
    reading densities (pywmi/export.py), temporary files (pywmi/temp.py) and
    XaddEngine.normalize (pywmi/engines/xadd.py).

    Simplified: argparse and the dialects of import_density are elsewhere (Convert_Model.v), so
    a task starts from the imported density; logging is left out; a file holds nothing, a JSON
    state or lines of text. *)

From Verif Require Import Base Smt Parse_Model Domain_Model Print_Model.

(** What a file holds.  Models no function: the observable state of the disk. *)
Inductive content :=
| CEmpty
| CState (s : nstate)
| CText (lines : list string).

(** The disk: the content of each existing path. *)
Definition disk := string -> option content.

(** Writing and removing one path.  export.py:17-18, temp.py:23 *)
Definition dwrite (fs : disk) (p : string) (c : content) : disk :=
  fun q => if decide (q = p) then Some c else fs q.
Definition dremove (fs : disk) (p : string) : disk :=
  fun q => if decide (q = p) then None else fs q.

(** How the external process ends.  xadd.py:132-144 *)
Inductive ending := Finished | Failed | TimedOut.

(** The arguments of plot.plot_formula.  __main__.py:405-410 *)
Record plot_call := PlotCall {
  pl_output : option string; pl_domain : domain; pl_formula : fm;
  pl_features : option string * option string }.

Section tasks.
  (** Float reading and printing, as for densities (Domain_Model.v). *)
  Variable read : string -> option Qc.
  Variable to_float : Qc -> option Qc.
  Variable show : Qc -> string.
  Variable show_int : Z -> string.
  (** The one line json.dump writes for a state. *)
  Variable json_text : nstate -> string.
  (** Whether open(path, "w") succeeds. *)
  Variable can_open : string -> bool.
  (** The name mkstemp picks on this disk. *)
  Variable fresh : disk -> string.
  (** The external process: it may change any file. *)
  Variable java : list string -> disk -> disk * ending.
  (** XaddEngine.path() and whether it exists. *)
  Variable jar : string.
  Variable jar_exists : bool.

  (** export.py:16-21 Exportable.to_file and dump: the file is opened for writing, and so
      emptied, before the state is computed. *)
  Definition den_to_file (n : density) (path : string) (fs : disk) : disk * Res unit :=
    if can_open path then
      let fs1 := dwrite fs path CEmpty in
      match den_get_state to_float show show_int n with
      | Ok s => (dwrite fs1 path (CState s), Ok tt)
      | Err e => (fs1, Err e)
      end
    else (fs, Err FileNotFoundErr).

  (** export.py:26-33 Exportable.from_file and load (a JSON error is a ValueError). *)
  Definition den_from_file (path : string) (fs : disk) : Res density :=
    match fs path with
    | None => Err FileNotFoundErr
    | Some (CState s) => den_from_state read s
    | Some _ => Err ValueError
    end.

  (** temp.py:5-24 TemporaryFile in a [with] statement.  An exception of the callback leaves
      __enter__, so __exit__ is not called. *)
  Definition with_temp {A} (callback : option (string -> disk -> disk * Res unit))
      (body : string -> disk -> disk * Res A) (fs : disk) : disk * Res A :=
    let p := fresh fs in
    let fs1 := dwrite fs p CEmpty in
    let '(fs2, r) := match callback with Some k => k p fs1 | None => (fs1, Ok tt) end in
    match r with
    | Err e => (fs2, Err e)
    | Ok _ => let '(fs3, r) := body p fs2 in (dremove fs3 p, r)
    end.

  (** xadd.py:148-153 XaddEngine.import_normalized. *)
  Definition import_normalized (path : string) (fs : disk) : Res fm :=
    match fs path with
    | None => Err FileNotFoundErr
    | Some (CState s) => nested_to_smt read (json_text s)
    | Some (CText (l :: _)) => nested_to_smt read l
    | Some _ => Err IndexError
    end.

  (** xadd.py:104-146 XaddEngine.normalize; engine.py:68-70 temp_file.  A failing process is
      re-raised (CalledProcessError is a GenericException here), a timeout gives None. *)
  Definition normalize (d : domain) (support weight new_support : fm)
      (conjoin_old_support paths : bool) (fs : disk) : disk * Res (option fm) :=
    if negb jar_exists then (fs, Err RuntimeErr)
    else
      let new_support := if conjoin_old_support then mkAnd [support; new_support] else new_support in
      with_temp (Some (den_to_file (Density d support weight [BoolC true]))) (fun f fs =>
        with_temp None (fun f2 fs =>
          let '(fs, r) := den_to_file (Density d new_support (RealC 1) [BoolC true]) f2 fs in
          match r with
          | Err e => (fs, Err e)
          | Ok _ =>
              with_temp None (fun f3 fs =>
                let '(fs, r) := den_to_file (Density d (BoolC true) (RealC 1) [BoolC true]) f3 fs in
                match r with
                | Err e => (fs, Err e)
                | Ok _ =>
                    let '(fs, out) := java ["java"; "-jar"; jar; "normalize"; f; f2;
                                            if paths then "-p" else "-t"; f3] fs in
                    match out with
                    | Finished => (fs, rmap Some (import_normalized f3 fs))
                    | Failed => (fs, Err GenericException)
                    | TimedOut => (fs, Ok None)
                    end
                end) fs
          end) fs) fs.

  (** __main__.py:362-367 the task convert. *)
  Definition task_convert (file : string) (json_file : option string) (n : density)
      (fs : disk) : disk * Res unit :=
    let target := match json_file with Some p => p | None => file +:+ ".converted.json" end in
    den_to_file n target fs.

  (** __main__.py:392-395 the task normalize; [output_path] is parsed (323-325) but not used,
      and the value of normalize is dropped. *)
  Definition task_normalize (n : density) (new_support output_path : string) (total : bool)
      (fs : disk) : disk * Res unit :=
    match den_from_file new_support fs with
    | Err e => (fs, Err e)
    | Ok m =>
        let '(fs, r) := normalize (n_dom n) (n_support n) (n_weight n) (n_support m)
                          (negb total) true fs in
        (fs, rmap (fun _ => tt) r)
    end.

  (** __main__.py:397-410 the task plot, up to its call of plot_formula. *)
  Definition task_plot (file : string) (n : density) (output difference : option string)
      (feat_x feat_y : option string) (fs : disk) : Res plot_call :=
    let output_file :=
      match output with
      | Some o => if decide (o = "*") then Some (file +:+ ".png") else Some o
      | None => None
      end in
    match difference with
    | Some p =>
        if decide (p = "") then Ok (PlotCall output_file (n_dom n) (n_support n) (feat_x, feat_y))
        else
          let! other := den_from_file p fs in
          Ok (PlotCall output_file (n_dom n)
            (mkOr [mkAnd [n_support n; mkNot (n_support other)];
                   mkAnd [mkNot (n_support n); n_support other]]) (feat_x, feat_y))
    | None => Ok (PlotCall output_file (n_dom n) (n_support n) (feat_x, feat_y))
    end.
End tasks.

(** One [print(text)] after the ones before: nothing is printed once an exception was raised. *)
Definition say (before : list string * Res unit) (prefix : string) (text : Res string) : list string * Res unit :=
  match before with
  | (out, Ok _) =>
      match text with Ok t => (out ++ [prefix +:+ t], Ok tt) | Err e => (out, Err e) end
  | (out, Err e) => (out, Err e)
  end.

(** __main__.py:411-422 the task print; one string per call of print.  [fmt] formats numbers
    (Print_Model.v), [show_domain] is str(domain); the comma in print puts a blank after the tab. *)
Definition task_print (fmt : Qc -> string) (show_domain : domain -> string) (n : density) : list string * Res unit :=
  let out := say ([], Ok tt) "" (Ok "-- Domain ---") in
  let out := say out "" (Ok (show_domain (n_dom n))) in
  let out := say out "" (Ok "--- Support ---") in
  let out := say out "" (pretty_print fmt (n_support n)) in
  let out := say out "" (Ok "--- Weight ---") in
  let out := say out "" (pretty_print fmt (n_weight n)) in
  if 0 <? length (n_queries n) then
    foldl (fun out q => say out (String "009"%char " ") (pretty_print fmt q)) (say out "" (Ok "--- Queries ---")) (n_queries n)
  else out.
