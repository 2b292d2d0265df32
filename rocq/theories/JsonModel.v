(** Model of [json_remove_comments]: /repo/returnn/util/basic.py:1794-1845. Strings are lists of characters.

    The code iterates over the matches of the regular expression [QUOTE | /* | */ | // | LF | CR] from left to right. Here one function scans the text; [pend] is the text from [index] to the current position, [out] is the joined [new_str], [prev] is all of the text before the current position in reversed order. The three flags of the code are never set together, so they are one state. *)
From Coq Require Import Ascii.
From Verif Require Import Base.
Local Open Scope nat_scope. Local Open Scope list_scope.

Definition quote : ascii := """".
Definition slash : ascii := "/".
Definition star : ascii := "*".
Definition backslash : ascii := "\".
Definition LF : ascii := "010".
Definition CR : ascii := "013".
Definition TAB : ascii := "009".
Definition space : ascii := " ".
Definition is_newline (c : ascii) : bool := Ascii.eqb c LF || Ascii.eqb c CR.
Definition is_space (c : ascii) : bool := Ascii.eqb c space || Ascii.eqb c TAB || is_newline c.

Inductive state := Outside | InString | InMulti | InSingle.
(** lines 1817-1822 *)
Definition flush (strip : bool) (st : state) (pend : list ascii) : list ascii :=
  match st with
  | InMulti | InSingle => []
  | InString => pend
  | Outside => if strip then filter (fun c => negb (is_space c)) pend else pend
  end.
(** lines 1804 and 1828: how many backslashes the match of [(\\)*$] has; [$] also matches before a newline at the end *)
Fixpoint count_backslashes (prev : list ascii) : nat :=
  match prev with c :: prev' => if Ascii.eqb c backslash then S (count_backslashes prev') else 0 | [] => 0 end.
Definition end_slashes (prev : list ascii) : nat :=
  match prev with c :: prev' => if Ascii.eqb c LF then count_backslashes prev' else count_backslashes prev | [] => 0 end.

Inductive token := TQuote | TOpen | TClose | TLine | TNewline (c : ascii).
Definition token_text (t : token) : list ascii :=
  match t with TQuote => [quote] | TOpen => [slash; star] | TClose => [star; slash] | TLine => [slash; slash] | TNewline c => [c] end.
(** lines 1824-1842: new state, new [pend], and what is appended *)
Definition on_token (strip : bool) (t : token) (prev : list ascii) (st : state) : state * list ascii * list ascii :=
  match t, st with
  | TQuote, Outside => (InString, [quote], [])
  | TQuote, InString => (if Nat.even (end_slashes prev) then Outside else InString, [quote], [])
  | TOpen, Outside => (InMulti, [], [])
  | TLine, Outside => (InSingle, [], [])
  | _, Outside => (Outside, [], [])
  | TClose, InMulti => (Outside, [], [])
  | TNewline _, InSingle => (Outside, [], [])
  | _, InMulti => (InMulti, [], [])
  | _, InSingle => (InSingle, [], [])
  | TNewline c, InString => (InString, [], if strip then [] else [c])
  | _, InString => (InString, [], token_text t)
  end.

(** the token at the start of the text, and the text after it *)
Definition match_token (s : list ascii) : option (token * list ascii) :=
  match s with
  | [] => None
  | c :: r =>
      if Ascii.eqb c quote then Some (TQuote, r)
      else if is_newline c then Some (TNewline c, r)
      else match r with
           | [] => None
           | c' :: r' =>
               if Ascii.eqb c slash && Ascii.eqb c' star then Some (TOpen, r')
               else if Ascii.eqb c star && Ascii.eqb c' slash then Some (TClose, r')
               else if Ascii.eqb c slash && Ascii.eqb c' slash then Some (TLine, r')
               else None
           end
  end.
(** lines 1813-1845; every step consumes a character, so the length of the text is enough fuel *)
Fixpoint scan (fuel : nat) (strip : bool) (s : list ascii) (prev : list ascii) (st : state) (pend out : list ascii) : list ascii :=
  match fuel, s with
  | _, [] => out ++ pend
  | O, _ => [] (* not reached *)
  | S fuel', c :: r =>
      match match_token s with
      | Some (t, r') =>
          let '(st', pend', app) := on_token strip t prev st in
          scan fuel' strip r' (rev (token_text t) ++ prev) st' pend' (out ++ flush strip st pend ++ app)
      | None => scan fuel' strip r (c :: prev) st (pend ++ [c]) out
      end
  end.
Definition json_remove_comments (strip : bool) (s : list ascii) : list ascii := scan (length s) strip s [] Outside [] [].
