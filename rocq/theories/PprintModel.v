(** Model of the pretty-printer: /repo/returnn/util/pprint.py. Texts are lists of tokens, so that white space of the layout can be told
    from the rest. *)
From Coq Require Import String.
From Verif Require Import Base.
Local Open Scope nat_scope. Local Open Scope list_scope.

(** [Space] is a blank, or the two blanks of one more level, lines 102, 108, 164 of pprint.py. *)
Inductive tok := T (s : string) | Space | Newline.
(** What is printed, pprint.py 128-178: an object with only its [repr], or a list, tuple, set or dict; keys of dicts by their [repr]. Without numpy arrays. *)
Inductive obj := Atom (repr : string) | OList (l : list obj) | OTuple (l : list obj) | OSet (l : list obj) | ODict (l : list (string * obj)).

(** [postfix_.endswith(",")], pprint.py 101 *)
Definition ends_with_comma (l : list tok) : bool := match rev l with T s :: _ => (s =? ",")%string | _ => false end.

Section Pprint.
  (** [_type_simplicity_score(obj) <= _type_simplicity_limit], pprint.py 93, 192-234: any function *)
  Variable simple : obj -> bool.
  (** [pprint], pprint.py 87-178. [multi] means that [line_postfix] is a newline, else it is empty. The elements of a list, lines 124-126, and of a dict,
      lines 163-164, are printed by [_sub_pprint], lines 99-110; [_print], lines 112-122, is [first] for the first time, and [last] for the end. *)
  Fixpoint pprint (o : obj) (multi : bool) (prefix postfix line_prefix : list tok) : list tok :=
    let one := multi && simple o in
    let prefix := if one then line_prefix ++ prefix else prefix in
    let postfix := if one then postfix ++ [Newline] else postfix in
    let multi := if one then false else multi in
    let line_prefix := if one then [] else line_prefix in
    let line_postfix := if multi then [Newline] else [] in
    let sub_postfix p := if negb multi && ends_with_comma p then p ++ [Space] else p in
    let sub_line_prefix (inc : bool) := if multi then line_prefix ++ (if inc then [Space] else []) else [] in
    let whole s := line_prefix ++ prefix ++ [T s] ++ postfix ++ line_postfix in
    let first s := line_prefix ++ prefix ++ [T s] ++ line_postfix in
    let last s := line_prefix ++ [T s] ++ postfix ++ line_postfix in
    let print_list := fix print_list (l : list obj) : list tok :=
      match l with
      | [] => []
      | x :: l => pprint x multi [] (sub_postfix (match l with [] => [] | _ => [T ","] end)) (sub_line_prefix true) ++ print_list l
      end in
    let print_dict := fix print_dict (l : list (string * obj)) : list tok :=
      match l with
      | [] => []
      | (k, x) :: l => pprint x multi [T k; T ":"; Space] (sub_postfix (match l with [] => [] | _ => [T ","] end)) (sub_line_prefix true) ++ print_dict l
      end in
    match o with
    | Atom r => whole r
    | OList [] => whole "[]"%string
    | OList l => first "["%string ++ print_list l ++ last "]"%string
    | OTuple [] => whole "()"%string
    | OTuple [x] => pprint x multi (prefix ++ [T "("]) (sub_postfix ([T ","; T ")"] ++ postfix)) (sub_line_prefix false)
    | OTuple l => first "("%string ++ print_list l ++ last ")"%string
    | OSet [] => whole "set()"%string
    | OSet l => first "{"%string ++ print_list l ++ last "}"%string
    | ODict [] => whole "{}"%string
    | ODict l => first "{"%string ++ print_dict l ++ last "}"%string
    end.
  (** [pformat], pprint.py 181-189 *)
  Definition pformat (o : obj) : list tok := pprint o true [] [] [].
End Pprint.
