(** Model of pywmi/smt_print.py. *)

From stdpp Require Import pretty.
From Verif Require Import Base Dict Smt Walk_Model Math_Model.

(** [s1 + sep + s2 + ...] *)
Definition join (sep : string) (l : list string) : string := String.concat sep l.

(** [x.startswith("-")] and the rest of the string after its first character. *)
Definition starts_minus (s : string) : bool :=
  match s with String "-"%char _ => true | _ => false end.
Definition tail1 (s : string) : string := match s with String _ t => t | _ => ""%string end.
Definition is_digit (c : ascii) : bool := (48 <=? N_of_ascii c)%N && (N_of_ascii c <=? 57)%N.
Definition starts_digit (s : string) : bool := match s with String c _ => is_digit c | _ => false end.

(** walk_plus, on the texts of the arguments.  smt_print.py:16-27 *)
Definition plus_text (args : list string) : Res string :=
  if forallb (fun a => bool_decide (a = "0"%string)) args then Ok "0"%string
  else match List.filter (fun a => negb (bool_decide (a = "0"%string))) args with
       | [] => Err IndexError
       | a :: rest =>
           Ok (fold_left (fun r a =>
                 if starts_minus a then (r +:+ " - " +:+ tail1 a)%string else (r +:+ " + " +:+ a)%string) rest a)
       end.

(** walk_times, on the texts of the arguments; [arg[0]] of an empty text raises.
    The sort is stable and only moves the texts starting with a digit to the front.
    smt_print.py:32-42 *)
Definition times_text (args : list string) : Res string :=
  if existsb (fun a => bool_decide (a = "0"%string)) args then Ok "0"%string
  else if forallb (fun a => bool_decide (a = "1"%string)) args then Ok "1"%string
  else
    let args := List.filter (fun a => negb (bool_decide (a = "1"%string))) args in
    if existsb (fun a => bool_decide (a = ""%string)) args then Err IndexError
    else
      let sign := Nat.odd (length (List.filter starts_minus args)) in
      let args := map (fun a => if starts_minus a then tail1 a else a) args in
      let args := List.filter starts_digit args ++ List.filter (fun a => negb (starts_digit a)) args in
      Ok ((if sign then "-" else "") +:+ join "*" args)%string.

(** An integral value is printed as an integer, other values as floats: [fmt] is
    ["{}".format(float(value))], or the rounded form.  (The test
    [int(value) == float(value)] is modelled without the rounding of [float].)
    smt_print.py:69-81 *)
Definition number_text (fmt : Qc -> string) (q : Qc) : string :=
  if Pos.eqb (Qden (this q)) 1 then pretty (Qnum (this q)) else fmt q.
Definition constant_text (fmt : Qc -> string) (f : fm) : Res string :=
  match f with
  | BoolC b => Ok (if b then "True" else "False")%string
  | RealC q => Ok (number_text fmt q)
  | _ => Err RuntimeErr
  end.

(** PrintWalker, given the text of a comparison.  smt_print.py:6-81 *)
Definition print_walker (fmt : Qc -> string) (cmp : string -> fm -> Res string) : walker (Res string) := {|
  w_and rec l := let! l' := rmapM rec l in Ok ("(" +:+ join " & " l' +:+ ")")%string;
  w_or rec l := let! l' := rmapM rec l in Ok ("(" +:+ join " | " l' +:+ ")")%string;
  w_plus rec l := let! l' := rmapM rec l in plus_text l';
  w_minus rec a b := let! a' := rec a in let! b' := rec b in Ok (a' +:+ " - " +:+ b')%string;
  w_times rec l := let! l' := rmapM rec l in times_text l';
  w_not rec a := let! a' := rec a in Ok ("~" +:+ a')%string;
  w_ite rec c a b := let! c' := rec c in let! a' := rec a in let! b' := rec b in
    Ok ("(if " +:+ c' +:+ " then " +:+ a' +:+ " else " +:+ b' +:+ ")")%string;
  w_pow rec a b := let! a' := rec a in let! b' := rec b in Ok (a' +:+ "^" +:+ b')%string;
  w_lte rec a b := cmp "<="%string (LeN a b);
  w_lt rec a b := cmp "<"%string (LeN a b);
  w_equals rec a b := let! a' := rec a in let! b' := rec b in Ok ("(" +:+ a' +:+ " = " +:+ b' +:+ ")")%string;
  w_symbol n t := Ok n;
  w_const f := constant_text fmt f;
  w_cannot := Err RuntimeErr;
  w_fuel := Err OutOfFuel
|}.

(** The two sides of a normalised inequality contain no comparison; they are walked
    with their own fuel. *)
Definition side_text (fmt : Qc -> string) (f : fm) : Res string :=
  walk (print_walker fmt (fun _ _ => Err OutOfFuel)) (msize f) f.

(** walk_lte, walk_lt: both normalise [left <= right] and print the two sides.
    smt_print.py:53-61 *)
Definition comparison_text (fmt : Qc -> string) (op : string) (f : fm) : Res string :=
  let! d := li_from_smt f in
  let! g := li_to_smt (li_normalize d) in
  match g with
  | LeN l r | LtN l r =>
      let! l' := side_text fmt l in
      let! r' := side_text fmt r in
      Ok ("(" +:+ l' +:+ " " +:+ op +:+ " " +:+ r' +:+ ")")%string
  | _ => Err RuntimeErr
  end.

(** pretty_print.  smt_print.py:84-85 *)
Definition pretty_print (fmt : Qc -> string) (f : fm) : Res string :=
  walk (print_walker fmt (comparison_text fmt)) (msize f) f.
