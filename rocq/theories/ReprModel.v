(** Model of [better_repr] (/repo/returnn/util/basic.py:1145-1173), and of python's [eval] on the texts it writes.

    Simplifications: a finite float is its [repr] text (python guarantees that [repr] of a float reads back as the same float); characters are code points below 256;
    dictionaries have string and integer keys; deques, sets and other classes (the fallback to [repr]) are left out,
    except for [EpochData] of /repo/returnn/learning_rate_control.py:24-77, which is the call expression [VCall]. *)
From Coq Require Import Ascii String DecimalString.
From Verif Require Import Base PyDict.
Local Open Scope string_scope. Local Open Scope nat_scope. Local Open Scope list_scope.
Local Notation length := List.length.

Inductive key := KStr (s : string) | KInt (z : Z).
Inductive pyv :=
| VNone | VBool (b : bool) | VInt (z : Z) | VFloat (text : string) | VInf | VNegInf | VNan
| VStr (s : string) | VList (l : list pyv) | VTuple (l : list pyv) | VDict (d : list (key * pyv))
| VCall (learning_rate error : pyv).

Definition keqb_key (a b : key) : bool :=
  match a, b with KStr s, KStr t => String.eqb s t | KInt s, KInt t => Z.eqb s t | _, _ => false end.
#[global] Program Instance EqB_key : EqB key := {| keqb := keqb_key |}.
Next Obligation.
  destruct a as [s|s], b as [t|t]; cbn; try (split; discriminate).
  - rewrite String.eqb_eq. split; congruence.
  - rewrite Z.eqb_eq. split; congruence.
Qed.

(** * Printing *)
Definition code (c : ascii) : nat := nat_of_ascii c.
(** [c] has the code point [n]. *)
Definition has_code (n : nat) (c : ascii) : bool := code c =? n.
Definition newline : string := String (ascii_of_nat 10) "".
Definition hex_digit (n : nat) : ascii := ascii_of_nat (if n <? 10 then 48 + n else 87 + n).
(** python's [str.isprintable], for Latin-1 *)
Definition printable (c : ascii) : bool := (32 <=? code c) && negb ((127 <=? code c) && (code c <=? 160)) && negb (code c =? 173).
(** One character in python's [repr] of a string with the given quotes. *)
Definition escape_char (q c : ascii) : string :=
  if Ascii.eqb c q || Ascii.eqb c "\" then String "\" (String c "")
  else if has_code 10 c then "\n" else if has_code 13 c then "\r" else if has_code 9 c then "\t"
  else if printable c then String c ""
  else String "\" (String "x" (String (hex_digit (code c / 16)) (String (hex_digit (code c mod 16)) ""))).
Fixpoint escape (q : ascii) (s : string) : string := match s with "" => "" | String c s' => escape_char q c ++ escape q s' end%string.
Fixpoint has_char (c : ascii) (s : string) : bool := match s with "" => false | String d s' => Ascii.eqb c d || has_char c s' end%string.
Definition quote : ascii := "'".
Definition dquote : ascii := ascii_of_nat 34.
(** python [repr(s)] for a string *)
Definition repr_str (s : string) : string :=
  let q := if has_char quote s && negb (has_char dquote s) then dquote else quote in
  String q (escape q s ++ String q "")%string.
(** python [repr(z)] for an integer *)
Definition repr_int (z : Z) : string := NilZero.string_of_int (Z.to_int z).
Definition repr_key (k : key) : string := match k with KStr s => repr_str s | KInt z => repr_int z end.

(** python [sorted(o.items())]; keys of different types are not compared, see [sortable] *)
Definition key_leb (a b : key) : bool :=
  match a, b with KStr s, KStr t => String.leb s t | KInt s, KInt t => Z.leb s t | KStr _, KInt _ => false | KInt _, KStr _ => true end.
Fixpoint insert_item {X} (x : key * X) (l : list (key * X)) : list (key * X) :=
  match l with [] => [x] | y :: l' => if key_leb (fst x) (fst y) then x :: l else y :: insert_item x l' end.
Fixpoint sort_items {X} (l : list (key * X)) : list (key * X) := match l with [] => [] | x :: l' => insert_item x (sort_items l') end.

Definition join (sep : string) (l : list string) : string := String.concat sep l.
Definition total (l : list string) : nat := list_sum (map String.length l).
(** The lines [better_repr] makes of a dictionary's (sorted) entries. /repo/returnn/util/basic.py:1163-1167 *)
Definition dict_text (ls : list string) : string :=
  if 40 <=? total ls then ("{" ++ newline ++ join "" (map (fun v => v ++ "," ++ newline) ls) ++ "}")%string
  else ("{" ++ join ", " ls ++ "}")%string.

(** python [repr(o)], which is python [str(o)] except for strings. Only used for the single element of a tuple. *)
Fixpoint repr (v : pyv) : string :=
  match v with
  | VNone => "None" | VBool true => "True" | VBool false => "False" | VInt z => repr_int z | VFloat t => t
  | VInf => "inf" | VNegInf => "-inf" | VNan => "nan" | VStr s => repr_str s
  | VList l => "[" ++ join ", " (map repr l) ++ "]"
  | VTuple [x] => "(" ++ repr x ++ ",)"
  | VTuple l => "(" ++ join ", " (map repr l) ++ ")"
  | VDict d => "{" ++ join ", " (map (fun kv => repr_key (fst kv) ++ ": " ++ repr (snd kv)) d) ++ "}"
  | VCall _ _ => "EpochData"
  end%string.

(** /repo/returnn/util/basic.py:1154-1173, and EpochData.__repr__ /repo/returnn/learning_rate_control.py:71-77. For a tuple with one element, [o[0]] is used as the argument of [%], which gives python [str(o[0])],
    or, if it is itself a tuple with one element, python [str] of that (any other tuple is a TypeError, see [printable_value]). *)
Fixpoint brepr (v : pyv) : string :=
  match v with
  | VList l => "[" ++ newline ++ join "" (map (fun x => brepr x ++ "," ++ newline) l) ++ "]"
  | VTuple [VStr s] => "(" ++ s ++ ",)"
  | VTuple [VTuple [VStr s]] => "(" ++ s ++ ",)"
  | VTuple [VTuple [x]] => "(" ++ repr x ++ ",)"
  | VTuple [x] => "(" ++ repr x ++ ",)"
  | VTuple l => "(" ++ join ", " (map brepr l) ++ ")"
  | VDict d => dict_text (map (fun kt => repr_key (fst kt) ++ ": " ++ snd kt)%string (sort_items (map (fun kv => (fst kv, brepr (snd kv))) d)))
  | VInf => "float('inf')" | VNegInf => "float('-inf')" | VNan => "float('nan')"
  | VCall lr error => "EpochData(learningRate=" ++ brepr lr ++ ", error=" ++ brepr error ++ ")"
  | _ => repr v
  end%string.

Definition is_kstr (k : key) : bool := match k with KStr _ => true | KInt _ => false end.
(** [sorted] compares all keys, so it fails for strings and integers together. *)
Definition sortable {X} (d : list (key * X)) : bool := forallb (fun kv => is_kstr (fst kv)) d || forallb (fun kv => negb (is_kstr (fst kv))) d.
(** No TypeError. Inside a tuple with one element python's own [repr] is used, which does not sort. *)
Fixpoint printable_value (v : pyv) : bool :=
  match v with
  | VTuple [VTuple [_]] => true
  | VTuple [VTuple _] => false
  | VTuple [_] => true
  | VList l | VTuple l => forallb printable_value l
  | VDict d => sortable d && forallb (fun kv => printable_value (snd kv)) d
  | VCall a b => printable_value a && printable_value b
  | _ => true
  end.
Definition better_repr (v : pyv) : res string := if printable_value v then Ok (brepr v) else Err TypeError.

(** * Python's [eval], for the expressions above. Everything else (operators, other calls, ...) is an error here. *)
Definition is_space (c : ascii) : bool := (code c =? 32) || (code c =? 10).
Fixpoint skip (s : string) : string := match s with String c s' => if is_space c then skip s' else s | "" => "" end%string.
Fixpoint span (p : ascii -> bool) (s : string) : string * string :=
  match s with String c s' => if p c then (let (a, b) := span p s' in (String c a, b)) else (""%string, s) | ""%string => (""%string, ""%string) end.
Definition is_digit (c : ascii) : bool := (48 <=? code c) && (code c <=? 57).
Definition is_letter (c : ascii) : bool := (97 <=? code c) && (code c <=? 122) || (65 <=? code c) && (code c <=? 90) || (code c =? 95).
Definition is_number_char (c : ascii) : bool := is_digit c || Ascii.eqb c "." || Ascii.eqb c "e" || Ascii.eqb c "+" || Ascii.eqb c "-".

(** Literals like 12.5e-07: an optional minus, digits, then a fraction or an exponent or both. *)
Definition strip_sign (s : string) : string := match s with String c s' => if Ascii.eqb c "-" then s' else s | "" => "" end%string.
Definition all_digits (s : string) : bool := let (a, b) := span is_digit s in negb (String.eqb a "") && String.eqb b "".
Definition exponent (s : string) : bool := match s with String c s' => if Ascii.eqb c "-" || Ascii.eqb c "+" then all_digits s' else all_digits s | "" => false end%string.
Definition float_text (s : string) : bool :=
  let (a, b) := span is_digit (strip_sign s) in
  negb (String.eqb a "") &&
  match b with
  | String c b' =>
      if Ascii.eqb c "." then (let (f, e) := span is_digit b' in negb (String.eqb f "") && match e with String c' e' => Ascii.eqb c' "e" && exponent e' | "" => true end)
      else Ascii.eqb c "e" && exponent b'
  | "" => false
  end%string.
Definition number (s : string) : res pyv :=
  if float_text s then Ok (VFloat s)
  else match NilZero.int_of_string s with Some d => Ok (VInt (Z.of_int d)) | None => Err OtherException end.

Definition unhex (c : ascii) : option nat :=
  if is_digit c then Some (code c - 48) else if (97 <=? code c) && (code c <=? 102) then Some (code c - 87) else None.
(** The rest of a string literal, after the opening quotes. *)
Fixpoint string_rest (q : ascii) (s : string) : res (string * string) :=
  match s with
  | "" => Err OtherException
  | String c s' =>
      if Ascii.eqb c q then Ok (""%string, s')
      else if has_code 10 c then Err OtherException
      else if Ascii.eqb c "\" then
        match s' with
        | String d s2 =>
            if Ascii.eqb d "x" then
              match s2 with
              | String h1 (String h2 s3) =>
                  match unhex h1, unhex h2 with
                  | Some a, Some b => let* r := string_rest q s3 in Ok (String (ascii_of_nat (a * 16 + b)) (fst r), snd r)
                  | _, _ => Err OtherException
                  end
              | _ => Err OtherException
              end
            else
              let* r := string_rest q s2 in
              if Ascii.eqb d "n" then Ok (String (ascii_of_nat 10) (fst r), snd r)
              else if Ascii.eqb d "r" then Ok (String (ascii_of_nat 13) (fst r), snd r)
              else if Ascii.eqb d "t" then Ok (String (ascii_of_nat 9) (fst r), snd r)
              else if Ascii.eqb d "\" || Ascii.eqb d quote || Ascii.eqb d dquote then Ok (String d (fst r), snd r)
              else Err OtherException
        | "" => Err OtherException
        end
      else let* r := string_rest q s' in Ok (String c (fst r), snd r)
  end%string.

(** Items, separated by commas, up to the closing bracket; also, if there was a comma. *)
Fixpoint items {A} (item : string -> res (A * string)) (close : ascii) (fuel : nat) (s : string) : res (list A * bool * string) :=
  match fuel with
  | O => Err OutOfFuel
  | S fuel' =>
      match skip s with
      | "" => Err OtherException
      | String c r =>
          if Ascii.eqb c close then Ok ([], false, r)
          else
            let* x := item (String c r) in
            match skip (snd x) with
            | "" => Err OtherException
            | String d r' =>
                if Ascii.eqb d "," then let* y := items item close fuel' r' in Ok (fst x :: fst (fst y), true, snd y)
                else if Ascii.eqb d close then Ok ([fst x], false, r')
                else Err OtherException
            end
      end
  end%string.
(** One character, after blanks. *)
Definition expect (c : ascii) (s : string) : res string := match skip s with String d r => if Ascii.eqb c d then Ok r else Err OtherException | "" => Err OtherException end%string.
Definition as_key (v : pyv) : res key := match v with VStr s => Ok (KStr s) | VInt z => Ok (KInt z) | _ => Err TypeError end.
Definition entry (p : string -> res (pyv * string)) (s : string) : res (key * pyv * string) :=
  let* k := p s in
  let* s1 := expect ":" (snd k) in
  let* v := p s1 in
  let* k' := as_key (fst k) in
  Ok (k', fst v, snd v).
Definition keyword (p : string -> res (pyv * string)) (s : string) : res (string * pyv * string) :=
  let (name, s1) := span is_letter (skip s) in
  let* s2 := expect "=" s1 in
  let* v := p s2 in
  Ok (name, fst v, snd v).

Definition make_dict (l : list (key * pyv)) : list (key * pyv) := fold_left (fun d kv => dset d (fst kv) (snd kv)) l [].
(** [fuel] bounds the nesting. *)
Fixpoint expr (fuel : nat) (s : string) : res (pyv * string) :=
  match fuel with
  | O => Err OutOfFuel
  | S fuel' =>
      match skip s with
      | "" => Err OtherException
      | String c r =>
          if Ascii.eqb c quote || Ascii.eqb c dquote then let* x := string_rest c r in Ok (VStr (fst x), snd x)
          else if is_digit c || Ascii.eqb c "-" then
            let (t, r') := span is_number_char (String c r) in let* v := number t in Ok (v, r')
          else if Ascii.eqb c "[" then
            let* x := items (expr fuel') "]" (S (String.length r)) r in Ok (VList (fst (fst x)), snd x)
          else if Ascii.eqb c "(" then
            let* x := items (expr fuel') ")" (S (String.length r)) r in
            Ok (match fst (fst x), snd (fst x) with [v], false => v | l, _ => VTuple l end, snd x)
          else if Ascii.eqb c "{" then
            let* x := items (entry (expr fuel')) "}" (S (String.length r)) r in Ok (VDict (make_dict (fst (fst x))), snd x)
          else if is_letter c then
            let (name, r') := span is_letter (String c r) in
            if String.eqb name "None" then Ok (VNone, r')
            else if String.eqb name "True" then Ok (VBool true, r')
            else if String.eqb name "False" then Ok (VBool false, r')
            else if String.eqb name "nan" then Ok (VNan, r')
            else if String.eqb name "inf" then Ok (VInf, r')
            else if String.eqb name "float" then
              let* r1 := expect "(" r' in
              let* x := expr fuel' r1 in
              let* r2 := expect ")" (snd x) in
              match fst x with
              | VStr t => if String.eqb t "inf" then Ok (VInf, r2) else if String.eqb t "-inf" then Ok (VNegInf, r2) else if String.eqb t "nan" then Ok (VNan, r2) else Err ValueError
              | _ => Err TypeError
              end
            else if String.eqb name "EpochData" then
              let* r1 := expect "(" r' in
              let* x := items (keyword (expr fuel')) ")" (S (String.length r1)) r1 in
              match fst (fst x) with
              | [(n1, a); (n2, b)] => if String.eqb n1 "learningRate" && String.eqb n2 "error" then Ok (VCall a b, snd x) else Err TypeError
              | _ => Err TypeError
              end
            else Err OtherException
          else Err OtherException
      end
  end%string.

(** python [eval(s)] *)
Definition eval (s : string) : res pyv :=
  let* x := expr (S (String.length s)) s in
  if String.eqb (skip (snd x)) "" then Ok (fst x) else Err OtherException.
