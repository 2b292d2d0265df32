(** What C35 is about: JSON texts with comments, given as a list of items. *)
From Coq Require Import Ascii.
From Verif Require Import Base JsonModel.
Local Open Scope nat_scope. Local Open Scope list_scope.

Inductive item :=
| Char (c : ascii) (* anything outside of strings and comments *)
| Str (body : list ascii) (* without the quotes *)
| Block (body : list ascii) (* without the delimiters *)
| Line (body : list ascii) (newline : ascii).

(** The inside of a string: a quote only after an (itself not escaped) backslash; no line breaks. *)
Fixpoint string_body (escaped : bool) (l : list ascii) : bool :=
  match l with
  | [] => negb escaped
  | c :: l' => negb (is_newline c) && (escaped || negb (Ascii.eqb c quote)) && string_body (negb escaped && Ascii.eqb c backslash) l'
  end.
(** The inside of a block comment does not contain its end mark, also not together with the star of the end mark. *)
Fixpoint contains_close (l : list ascii) : bool :=
  match l with
  | a :: ((b :: _) as l') => (Ascii.eqb a star && Ascii.eqb b slash) || contains_close l'
  | _ => false
  end.
Definition trailing_slashes (l : list ascii) : nat :=
  (fix count l := match l with c :: l' => if Ascii.eqb c slash then S (count l') else 0 | [] => 0 end) (rev l).
Definition item_ok (i : item) : Prop :=
  match i with
  | Char c => c <> quote /\ c <> slash /\ c <> star
  | Str body => string_body false body = true
  | Block body => contains_close body = false /\ Nat.even (trailing_slashes body) = true
  | Line body nl => is_newline nl = true /\ forallb (fun c => negb (is_newline c)) body = true
  end.
Definition render1 (i : item) : list ascii :=
  match i with
  | Char c => [c]
  | Str body => quote :: body ++ [quote]
  | Block body => slash :: star :: body ++ [star; slash]
  | Line body nl => slash :: slash :: body ++ [nl]
  end.
Definition render (items : list item) : list ascii := flat_map render1 items.
(** The text that should remain: no comments, no line breaks, no white space outside of strings if it is to be stripped. *)
Definition keep1 (strip : bool) (i : item) : list ascii :=
  match i with
  | Char c => if is_newline c || strip && is_space c then [] else [c]
  | Str body => quote :: body ++ [quote]
  | Block _ | Line _ _ => []
  end.
Definition keep (strip : bool) (items : list item) : list ascii := flat_map (keep1 strip) items.
(** The item ends with one of the marks that the code looks for. *)
Definition is_mark (i : item) : bool := match i with Char c => is_newline c | _ => true end.
