(** Model of the engines that call an external solver: pywmi/engines/pa.py, mpwmi.py,
    praise.py and xadd.py.  The solvers are arguments.  Checks that a solver is installed
    are left out. *)

From Verif Require Import Base Dict Smt Domain_Model Engine_Model.

Section wrappers.
  (** Python's [float()] on the bounds. *)
  Variable fl : Qc -> Qc.

  (** The support of [self.with_constraint(self.domain.get_bounds())] when [add_bounds],
      pa.py:33-37, mpwmi.py:42-44 and 49-51, xadd.py:84-88 *)
  Definition support_of (add_bounds : bool) (d : domain) (support : fm) : Res fm :=
    if add_bounds then let! b := get_bounds fl d in Ok (with_constraint support b) else Ok support.

  (** WMI(support, weight).computeWMI(True, domA, domX)[0] *)
  Variable pa : fm -> fm -> list fm -> list fm -> Res Qc.
  (** pa.py:33-40 compute_volume and 54-63 compute_volume_pa.  The sets of symbols are
      lists. *)
  Definition pa_volume (add_bounds : bool) (d : domain) (support weight : fm) : Res Qc :=
    let! s := support_of add_bounds d support in
    let! bs := bool_vars d in
    let! domA := rmapM (get_symbol d) bs in
    let! rs := real_vars d in
    let! domX := rmapM (get_symbol d) rs in
    pa s weight domA domX.

  (** MPWMI(support, weight).compute_volumes(queries) *)
  Variable mp : fm -> fm -> list fm -> Res (Qc * list Qc).
  (** mpwmi.py:41-46 compute_probabilities *)
  Definition mp_probabilities (add_bounds : bool) (d : domain) (support weight : fm) (queries : list fm) : Res (list Qc) :=
    let! s := support_of add_bounds d support in
    let! r := mp s weight queries in
    rmapM (fun q => if decide (fst r = 0%Qc) then Err ZeroDivisionError else Ok (q / fst r)%Qc) (snd r).
  (** mpwmi.py:48-52 compute_volume *)
  Definition mp_volume (add_bounds : bool) (d : domain) (support weight : fm) : Res Qc :=
    let! s := support_of add_bounds d support in
    let! r := mp s weight [] in
    Ok (fst r).

  (** PRAiSEInference(support, weight).compute_normalized_probability(query) *)
  Variable praise : fm -> fm -> fm -> Res Qc.
  (** praise.py:46-47 compute_volume and 61-66 compute_volume_pa without a query *)
  Definition praise_volume (add_bounds : bool) (d : domain) (support weight : fm) : Res Qc :=
    praise support weight (BoolC true).
  (** praise.py:49-50 compute_probabilities *)
  Definition praise_probabilities (add_bounds : bool) (d : domain) (support weight : fm) (queries : list fm) : Res (list Qc) :=
    rmapM (praise support weight) queries.
End wrappers.

(** * xadd.py *)

(** Texts are lists of characters. *)
Notation text := (list ascii).
Definition nl : ascii := Ascii.ascii_of_nat 10.
Definition is_digit (c : ascii) : bool :=
  let n := Ascii.nat_of_ascii c in (48 <=? n)%nat && (n <=? 57)%nat.

(** [\d*], as many as possible: what is matched and what is left. *)
Fixpoint digits (s : text) : text * text :=
  match s with
  | c :: t => if is_digit c then let '(a, b) := digits t in (c :: a, b) else ([], s)
  | [] => ([], [])
  end.
(** [c?] *)
Definition maybe (c : ascii) (s : text) : text * text :=
  match s with x :: t => if decide (x = c) then ([c], t) else ([], s) | [] => ([], []) end.
(** [\d+] *)
Definition digits1 (s : text) : option (text * text) :=
  match digits s with ([], _) => None | r => Some r end.

(** xadd.py:21, the group [-?\d+\.\d+E?-?\d*].  Taking as many characters as possible at
    every step is what the backtracking search finds: the steps match disjoint characters
    (a shorter second [\d+] only moves digits to the last [\d*] within the group). *)
Definition number (s : text) : option (text * text) :=
  let '(a, s) := maybe "-"%char s in
  match digits1 s with
  | None => None
  | Some (b, s) =>
      match s with
      | c :: s =>
          if decide (c = "."%char) then
            match digits1 s with
            | None => None
            | Some (d, s) =>
                let '(e, s) := maybe "E"%char s in
                let '(f, s) := maybe "-"%char s in
                let '(g, s) := digits s in
                Some (a ++ b ++ "."%char :: d ++ e ++ f ++ g, s)
            end
          else None
      | [] => None
      end
  end.
Definition expect (c : ascii) (s : text) : option text :=
  match s with x :: t => if decide (x = c) then Some t else None | [] => None end.

(** xadd.py:21, the pattern at the beginning of a text. *)
Definition match_here (s : text) : option (text * text * text) :=
  match expect nl s with
  | None => None
  | Some s =>
      match number s with
      | None => None
      | Some (a, s) =>
          match expect " "%char s with
          | None => None
          | Some s =>
              match number s with
              | None => None
              | Some (b, s) => match expect nl s with None => None | Some s => Some (a, b, s) end
              end
          end
      end
  end.
(** [pattern.findall(output)]: the search goes on behind each match. *)
Fixpoint findall (fuel : nat) (s : text) : list (text * text) :=
  match fuel with
  | 0 => []
  | S fuel =>
      match match_here s with
      | Some (a, b, s) => (a, b) :: findall fuel s
      | None => match s with [] => [] | _ :: s => findall fuel s end
      end
  end.

(** What running the program ends in. *)
Inductive ran := Output (s : text) | Failed | TimedOut.

Section xadd.
  (** Python's [float()] on a text. *)
  Variable float_of : text -> option Qc.
  (** [java -jar xadd.jar inference] on the file with this support and weight and these
      queries. *)
  Variable run : fm -> fm -> option (list fm) -> ran.
  Variable fl : Qc -> Qc.

  (** xadd.py:42-82 call_wmi.  Writing the file is not modelled (see Engine_Model). *)
  Definition call_wmi (support weight : fm) (queries : option (list fm)) : Res (option (list Qc)) :=
    match run support weight queries with
    | Output out =>
        let! rs := rmapM (fun m : text * text =>
          match float_of (match queries with Some _ => fst m | None => snd m end) with
          | Some q => Ok q
          | None => Err ValueError
          end) (findall (S (length out)) out) in
        Ok (Some rs)
    | Failed | TimedOut => Ok None
    end.

  (** xadd.py:84-96 compute_volume *)
  Definition xadd_volume (add_bounds : bool) (d : domain) (support weight : fm) : Res (option Qc) :=
    let! s := support_of fl add_bounds d support in
    let! r := call_wmi s weight None in
    match r with
    | None | Some [] => Ok None
    | Some (q :: _) => Ok (Some q)
    end.

  (** engine.py:29-33, inherited: comparing or dividing None raises TypeError. *)
  Definition xadd_probabilities (add_bounds : bool) (d : domain) (support weight : fm) (queries : list fm) :
      Res (list (option Qc)) :=
    let! v := xadd_volume add_bounds d support weight in
    rmapM (fun query =>
      match v with
      | None => Err TypeError
      | Some volume =>
          if qlt 0 volume then
            let! u := xadd_volume add_bounds d (with_constraint support query) weight in
            match u with None => Err TypeError | Some u => Ok (Some (u / volume)%Qc) end
          else Ok None
      end) queries.
End xadd.
