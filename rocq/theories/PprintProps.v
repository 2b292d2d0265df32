(** C144: pretty-printing of nested objects. Model: PprintModel; vocabulary: PprintSpec. *)
From Coq Require Import String.
From Verif Require Import Base ListLemmas PprintModel PprintSpec PprintProofs.
Local Open Scope nat_scope. Local Open Scope list_scope.

(** Up to the white space of the layout, the text is the one of [repr], so it is read as the same object: for any nesting, and whatever is printed on one line. *)
Theorem C144_same : forall simple o, visible (pformat simple o) = visible (python_repr o).
Proof. intros simple o. unfold pformat. rewrite same_visible by reflexivity. cbn. now rewrite app_nil_r. Qed.
Print Assumptions C144_same.

(** What is simple is printed exactly as by [repr], on one line with a newline at its end. *)
Theorem C144_line : forall simple o, simple o = true -> pformat simple o = python_repr o ++ [Newline].
Proof. intros simple o H. unfold pformat. rewrite pprint_simple by exact H. rewrite <- pprint_false, one_line by reflexivity. reflexivity. Qed.
Print Assumptions C144_line.

(** Within one line, nothing else is printed either: the given texts before and after it, and [repr] in between. *)
Theorem C144_inner : forall simple o prefix postfix, ends_with_comma postfix = false ->
  pprint simple o false prefix postfix [] = prefix ++ python_repr o ++ postfix.
Proof. intros simple o prefix postfix H. now apply one_line. Qed.
Print Assumptions C144_inner.

Definition ex_obj : obj := ODict [("'a'"%string, OList [Atom "1"; OTuple [Atom "2"]]); ("'b'"%string, OTuple [OTuple [Atom "3"]]); ("'c'"%string, OSet [])].
Definition ex_simple (o : obj) : bool := match o with ODict _ => false | OTuple [_] => false | _ => true end.
Example C144_ex_line : pformat (fun _ => true) ex_obj =
  [T "{"; T "'a'"; T ":"; Space; T "["; T "1"; T ","; Space; T "("; T "2"; T ","; T ")"; T "]"; T ","; Space;
   T "'b'"; T ":"; Space; T "("; T "("; T "3"; T ","; T ")"; T ","; T ")"; T ","; Space; T "'c'"; T ":"; Space; T "set()"; T "}"; Newline].
Proof. reflexivity. Qed.
(** Each entry of the dict on its own line, with more indentation *)
Example C144_ex_lines : pformat ex_simple ex_obj =
  [T "{"; Newline; Space; T "'a'"; T ":"; Space; T "["; T "1"; T ","; Space; T "("; T "2"; T ","; T ")"; T "]"; T ","; Newline;
   Space; T "'b'"; T ":"; Space; T "("; T "("; T "3"; T ","; T ")"; T ","; T ")"; T ","; Newline; Space; T "'c'"; T ":"; Space; T "set()"; Newline; T "}"; Newline].
Proof. reflexivity. Qed.
Example C144_ex_nested : pformat (fun o => match o with Atom _ => true | _ => false end) (OList [OList [Atom "1"; Atom "2"]; Atom "3"]) =
  [T "["; Newline; Space; T "["; Newline; Space; Space; T "1"; T ","; Newline; Space; Space; T "2"; Newline; Space; T "]"; T ","; Newline; Space; T "3"; Newline; T "]"; Newline].
Proof. reflexivity. Qed.
