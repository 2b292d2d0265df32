(* The config: /repo/returnn/config.py, and init_config of /repo/returnn/__main__.py.

   A str is its list of characters (code points below 256). eval, str of values other than str, int and float of a str
   are Python's own, given as parameters ([python]). Config files in Python or JSON are given by what they set
   (depending on the config so far); optparse is a parameter too. *)
From Coq Require Import List ZArith Ascii String Lia Bool.
From Verif Require Import Base.
Import ListNotations.
Local Open Scope Z_scope.

Definition text := list ascii.

Fixpoint teqb (a b : text) : bool :=
  match a, b with
  | [], [] => true
  | x :: a', y :: b' => Ascii.eqb x y && teqb a' b'
  | _, _ => false
  end.

(* Values: list and tuple are not distinguished, other objects have a number and their truth value. *)
Inductive pyval :=
| VNone | VBool (b : bool) | VInt (z : Z) | VFloat (id : Z) | VStr (s : text) | VSeq (l : list pyval)
| VOther (id : Z) (truth : bool).

(* eval of an expression: a value, a SyntaxError, or any other exception *)
Inductive evres := EvOk (v : pyval) | EvSyntaxError | EvRaise (e : err).

Record python := {
  py_eval : text -> evres;
  py_repr : pyval -> text;          (* str(v) for a v which is no str *)
  py_int : text -> res Z;           (* int(s), a ValueError otherwise *)
  py_float : text -> res pyval;     (* float(s) *)
  py_truth : pyval -> bool          (* bool(v) of a float *)
}.

Definition str_of (py : python) (v : pyval) : text := match v with VStr s => s | _ => py_repr py v end.

(* config.py 26-35: self.dict and self.typed_dict *)
Record config := { c_dict : list (text * list text); c_typed : list (text * pyval) }.

Definition empty_config : config := {| c_dict := []; c_typed := [] |}.

Fixpoint lookup {A} (k : text) (d : list (text * A)) : option A :=
  match d with
  | [] => None
  | (n, v) :: d => if teqb k n then Some v else lookup k d
  end.

Fixpoint update {A} (k : text) (v : A) (d : list (text * A)) : list (text * A) :=
  match d with
  | [] => [(k, v)]
  | (n, w) :: d => if teqb k n then (n, v) :: d else (n, w) :: update k v d
  end.

(* config.py 355-360: set; 362-367: update *)
Definition set_typed (c : config) (k : text) (v : pyval) : config :=
  {| c_dict := c_dict c; c_typed := update k v (c_typed c) |}.

Definition update_typed (c : config) (l : list (text * pyval)) : config :=
  fold_left (fun c p => set_typed c (fst p) (snd p)) l c.

(* s.split(","), ",".join(l) *)
Definition comma : ascii := "044"%char.

Fixpoint split_comma (s : text) : list text :=
  match s with
  | [] => [[]]
  | c :: s' =>
    if Ascii.eqb c comma then [] :: split_comma s'
    else match split_comma s' with
         | p :: l => (c :: p) :: l
         | [] => [[c]]
         end
  end.

Fixpoint join (sep : text) (l : list text) : text :=
  match l with
  | [] => []
  | [p] => p
  | p :: l => p ++ sep ++ join sep l
  end.

(* s.find(",") *)
Fixpoint find_from (i : Z) (s : text) : Z :=
  match s with
  | [] => -1
  | c :: s' => if Ascii.eqb c comma then i else find_from (i + 1) s'
  end.

Definition t_include : text := list_ascii_of_string "include".

(* config.py 267-304: add_line. Loading a file (key "include") is a parameter. *)
Fixpoint load_all (load : config -> text -> res config) (c : config) (l : list text) : res config :=
  match l with
  | [] => Ok c
  | f :: l => let* c := load c f in load_all load c l
  end.

Definition add_line (py : python) (load : config -> text -> res config) (c : config) (key value : text) : res config :=
  match lookup key (c_typed c) with
  | Some (VStr _) => Ok (set_typed c key (VStr value))
  | Some _ =>
    match py_eval py value with
    | EvOk v => Ok (set_typed c key v)
    | EvSyntaxError => Ok (set_typed c key (VStr value))
    | EvRaise e => Err e
    end
  | None =>
    let l := if 0 <? find_from 0 value then split_comma value else [value] in
    if teqb key t_include then load_all load c l
    else Ok {| c_dict := update key l (c_dict c); c_typed := c_typed c |}
  end.

(* ---- the old line-based format ---- *)

(* str.isspace: \t \n \v \f \r, \x1c to \x1f, the space, \x85, \xa0 *)
Definition is_space (c : ascii) : bool :=
  let n := nat_of_ascii c in
  ((9 <=? n) && (n <=? 13) || (28 <=? n) && (n <=? 32) || (n =? 133) || (n =? 160))%nat.

(* what str.splitlines splits at: the same without the tab, \x1f, the space and \xa0 *)
Definition is_newline (c : ascii) : bool :=
  let n := nat_of_ascii c in
  ((10 <=? n) && (n <=? 13) || (28 <=? n) && (n <=? 30) || (n =? 133))%nat.

Fixpoint lstrip (s : text) : text :=
  match s with
  | [] => []
  | c :: s' => if is_space c then lstrip s' else s
  end.

Definition strip (s : text) : text := rev (lstrip (rev (lstrip s))).

(* str.splitlines. (\r\n counts as one newline there; here an empty line comes in between, which load_file ignores.) *)
Fixpoint splitlines (s : text) : list text :=
  match s with
  | [] => []
  | c :: s' =>
    if is_newline c then [] :: splitlines s'
    else match splitlines s' with
         | p :: l => (c :: p) :: l
         | [] => [[c]]
         end
  end.

Definition hash : ascii := "035"%char.

(* line[: line.index("#")] *)
Fixpoint before_hash (s : text) : text :=
  match s with
  | [] => []
  | c :: s' => if Ascii.eqb c hash then [] else c :: before_hash s'
  end.

(* line.split(None, 1) of a stripped line which is not empty: the first word, and the rest without leading spaces *)
Fixpoint word (s : text) : text * text :=
  match s with
  | [] => ([], [])
  | c :: s' => if is_space c then ([], lstrip s) else let (w, r) := word s' in (c :: w, r)
  end.

(* config.py 134-143. None for an empty line, an AssertionError for a line with one word. *)
Definition parse_line (line : text) : res (option (text * text)) :=
  let line := strip (before_hash line) in
  match line with
  | [] => Ok None
  | _ =>
    let (k, v) := word line in
    match v with [] => Err AssertionError | _ => Ok (Some (k, v)) end
  end.

Definition parse_text (content : text) : res (list (text * text)) :=
  let* l := mapM parse_line (splitlines (strip content)) in
  Ok (flat_map (fun o => match o with Some p => [p] | None => [] end) l).

(* config.py 81-143: load_file. A file in Python or JSON sets typed values. (A Python file could also remove values, and
   it always sets "config", "__file__" and "__name__": these are among what it sets here.) A file which does not exist is
   an AssertionError. The fuel bounds the depth of includes. *)
Inductive file := Code (sets : config -> res (list (text * pyval))) | Lines (content : text).

Fixpoint add_lines (py : python) (load : config -> text -> res config) (c : config) (l : list (text * text)) : res config :=
  match l with
  | [] => Ok c
  | (k, v) :: l => let* c := add_line py load c k v in add_lines py load c l
  end.

Fixpoint load_file (fuel : nat) (py : python) (fs : text -> option file) (c : config) (name : text) : res config :=
  match fuel with
  | O => Err OutOfFuel
  | S fuel' =>
    match fs name with
    | None => Err AssertionError
    | Some (Code sets) => let* l := sets c in Ok (update_typed c l)
    | Some (Lines content) => let* l := parse_text content in add_lines py (load_file fuel' py fs) c l
    end
  end.

(* ---- the command line ---- *)

(* what optparse gives: the options set, in the order of their definition, the option --config (defined last), and the
   remaining arguments *)
Record cmd := { o_opts : list (text * text); o_config : option text; o_args : list text }.

Definition plus : ascii := "043"%char.
Definition minus : ascii := "045"%char.

(* config.py 257-265: key[0:2] == "++"; a value "+-x" stands for "-x" *)
Fixpoint arg_pairs (args : list text) : res (list (text * text)) :=
  match args with
  | [] => Ok []
  | key :: value :: args =>
    match key with
    | a :: b :: k =>
      if Ascii.eqb a plus && Ascii.eqb b plus then
        let value := match value with
                     | x :: y :: v => if Ascii.eqb x plus && Ascii.eqb y minus then y :: v else value
                     | _ => value
                     end in
        let* l := arg_pairs args in Ok ((k, value) :: l)
      else Err AssertionError
    | _ => Err AssertionError
    end
  | [_] => Err AssertionError
  end.

(* config.py 159-265: parse_cmd_args. The number of args, and with it all keys, is checked here before the first
   add_line; there the keys are checked one by one, so that a failing call may have set some. *)
Definition parse_cmd_args (py : python) (load : config -> text -> res config) (o : cmd) (c : config) : res config :=
  let* c := add_lines py load c (o_opts o) in
  let* c := (match o_config o with None => Ok c | Some f => load c f end) in
  let* l := arg_pairs (o_args o) in
  add_lines py load c l.

(* __main__.py 94-103: the config files among the arguments: those before the first with "+" or "-" (or an empty one) *)
Fixpoint split_args (args : list text) : list text * list text :=
  match args with
  | [] => ([], [])
  | a :: args' =>
    let is_opt := match a with [] => true | x :: _ => Ascii.eqb x minus || Ascii.eqb x plus end in
    if is_opt then ([], args) else let (f, o) := split_args args' in (a :: f, o)
  end.

(* __main__.py 55-118: init_config up to the server options. None and empty are the same for all arguments. *)
Definition init_config (fuel : nat) (py : python) (fs : text -> option file) (optparse : list text -> res cmd)
    (config_filename : option text) (args : list text)
    (default_config extra_updates : list (text * pyval)) : res config :=
  let load := load_file fuel py fs in
  let (files, args) := split_args args in
  let parse c := match args with
                 | [] => Ok c
                 | _ => let* o := optparse args in parse_cmd_args py load o c
                 end in
  let c := update_typed empty_config default_config in
  let c := update_typed c extra_updates in
  let* c := parse c in
  let* c := load_all load c (match config_filename with Some f => [f] | None => [] end) in
  let* c := load_all load c files in
  let c := update_typed c extra_updates in
  parse c.

(* ---- reading ---- *)

Definition is_some {A} (o : option A) : bool := match o with Some _ => true | None => false end.

(* config.py 306-322: has, is_typed *)
Definition has (c : config) (k : text) : bool := is_some (lookup k (c_typed c)) || is_some (lookup k (c_dict c)).
Definition is_typed (c : config) (k : text) : bool := is_some (lookup k (c_typed c)).

(* v[index]: of a list, of a str; a TypeError for other values (a dict is among these here) *)
Definition at_index {A} (l : list A) (i : Z) : res A :=
  let n := Z.of_nat (List.length l) in
  let i := if i <? 0 then i + n else i in
  if i <? 0 then Err IndexError
  else match nth_error l (Z.to_nat i) with Some x => Ok x | None => Err IndexError end.

Definition item (v : pyval) (i : Z) : res pyval :=
  match v with
  | VSeq l => at_index l i
  | VStr s => let* x := at_index s i in Ok (VStr [x])
  | _ => Err TypeError
  end.

(* config.py 385-409: value *)
Definition value (py : python) (c : config) (k : text) (default : pyval) (index : option Z) (sep : text) : res pyval :=
  match lookup k (c_typed c) with
  | Some ls =>
    match index with
    | None =>
      match ls with
      | VSeq l => Ok (VStr (join sep (map (str_of py) l)))
      | VNone => Ok default
      | _ => Ok (VStr (str_of py ls))
      end
    | Some i => let* x := item ls i in Ok (VStr (str_of py x))
    end
  | None =>
    match lookup k (c_dict c) with
    | Some ls =>
      match index with
      | None => Ok (VStr (join sep ls))
      | Some i => let* x := at_index ls i in Ok (VStr x)
      end
    | None => Ok default
    end
  end.

(* config.py 411-424: typed_value *)
Definition typed_value (c : config) (k : text) (default : pyval) (index : option Z) : res pyval :=
  let v := match lookup k (c_typed c) with Some v => v | None => default end in
  match index with
  | None => Ok v
  | Some i =>
    match v with
    | VSeq _ => item v i
    | _ => let* _ := assert_ (i =? 0) in Ok v
    end
  end.

Definition is_int (v : pyval) : bool := match v with VInt _ | VBool _ => true | _ => false end.
Definition is_number (v : pyval) : bool := match v with VInt _ | VBool _ | VFloat _ => true | _ => false end.
Definition is_none (v : pyval) : bool := match v with VNone => true | _ => false end.

(* bool(v) *)
Definition truth (py : python) (v : pyval) : bool :=
  match v with
  | VNone => false
  | VBool b => b
  | VInt z => negb (z =? 0)
  | VFloat _ => py_truth py v
  | VStr s => match s with [] => false | _ => true end
  | VSeq l => match l with [] => false | _ => true end
  | VOther _ b => b
  end.

(* int(v): of a str, an int or bool; of a float it is not modelled (TypeError here) *)
Definition to_int (py : python) (v : pyval) : res Z :=
  match v with
  | VStr s => py_int py s
  | VInt z => Ok z
  | VBool b => Ok (if b then 1 else 0)
  | _ => Err TypeError
  end.

Definition comma_text : text := [comma].

(* config.py 435-450: int *)
Definition get_int (py : python) (c : config) (k : text) (default : pyval) (index : Z) : res pyval :=
  if is_typed c k then
    let* v := typed_value c k default (Some index) in
    let* _ := assert_ (is_none v || is_int v) in
    Ok v
  else if is_some (lookup k (c_dict c)) then
    let* v := value py c k default (Some index) comma_text in
    let* z := to_int py v in Ok (VInt z)
  else Ok default.

(* util/basic.py 2533-2549: to_bool of a str *)
Definition lower (c : ascii) : ascii :=
  let n := nat_of_ascii c in
  if ((65 <=? n) && (n <=? 90) || (192 <=? n) && (n <=? 222) && negb (n =? 215))%nat then ascii_of_nat (n + 32) else c.

Definition t (s : string) : text := list_ascii_of_string s.

Definition to_bool (py : python) (s : text) : res bool :=
  match py_int py s with
  | Ok z => Ok (negb (z =? 0))
  | Err ValueError =>
    let v := map lower s in
    if existsb (teqb v) [t "true"; t "yes"; t "on"; t "1"] then Ok true
    else if existsb (teqb v) [t "false"; t "no"; t "off"; t "0"] then Ok false
    else Err ValueError
  | Err e => Err e
  end.

(* config.py 452-474: bool *)
Definition get_bool (py : python) (c : config) (k : text) (default : pyval) (index : Z) : res pyval :=
  if is_typed c k then
    let* v := typed_value c k default (Some index) in
    let v := if is_int v then VBool (truth py v) else v in
    let* _ := assert_ (is_none v || is_int v) in
    Ok v
  else if is_some (lookup k (c_dict c)) then
    let* v := value py c k VNone (Some index) comma_text in
    match str_of py v with
    | [] => Ok default
    | s => let* b := to_bool py s in Ok (VBool b)
    end
  else Ok default.

(* config.py 324-332: is_true *)
Definition is_true (py : python) (c : config) (k : text) (default : bool) : res pyval :=
  match lookup k (c_typed c) with
  | Some v => Ok (VBool (truth py v))
  | None => get_bool py c k (VBool default) 0
  end.

(* config.py 497-515: float *)
Definition get_float (py : python) (c : config) (k : text) (default : pyval) (index : Z) : res pyval :=
  let* v := (if is_typed c k then typed_value c k default (Some index)
             else value py c k default (Some index) comma_text) in
  if is_none v then Ok v else
  let* v := (match v with VStr s => py_float py s | _ => Ok v end) in
  let* _ := assert_ (is_number v) in
  Ok v.

(* config.py 517-533: list; the default is a list (or None for the empty one) *)
Definition as_list (v : pyval) : list pyval := match v with VSeq l => l | _ => [v] end.

Definition get_list (c : config) (k : text) (default : list pyval) : list pyval :=
  match lookup k (c_typed c) with
  | Some VNone => default
  | Some v => as_list v
  | None => match lookup k (c_dict c) with Some l => map VStr l | None => default end
  end.

(* config.py 535-551: int_list *)
Definition get_int_list (py : python) (c : config) (k : text) (default : list pyval) : res (list pyval) :=
  match lookup k (c_typed c) with
  | Some VNone => Ok default
  | Some v =>
    let* _ := assert_ (forallb is_int (as_list v)) in Ok (as_list v)
  | None => mapM (fun x => let* z := to_int py x in Ok (VInt z)) (get_list c k default)
  end.

(* s.split(":")[0], s.split(":")[1], and whether there is one *)
Definition colon : ascii := "058"%char.

Fixpoint cut_colon (s : text) : text * option text :=
  match s with
  | [] => ([], None)
  | c :: s' => if Ascii.eqb c colon then ([], Some s') else let (a, b) := cut_colon s' in (c :: a, b)
  end.

(* config.py 571-592: int_pair; the default is a pair of ints *)
Definition get_int_pair (py : python) (c : config) (k : text) (default : Z * Z) : res (Z * Z) :=
  match lookup k (c_typed c) with
  | Some v =>
    let l := match v with VSeq l => l | _ => [v; v] end in
    match l with
    | [x; y] => let* _ := assert_ (is_int x && is_int y) in
                let* a := to_int py x in let* b := to_int py y in Ok (a, b)
    | _ => Err AssertionError
    end
  | None =>
    match lookup k (c_dict c) with
    | None => Ok default
    | Some ls =>
      let s := join comma_text ls in
      match cut_colon s with
      | (a, Some r) => let* x := py_int py a in let* y := py_int py (fst (cut_colon r)) in Ok (x, y)
      | (a, None) => let* x := py_int py a in Ok (x, x)
      end
    end
  end.
