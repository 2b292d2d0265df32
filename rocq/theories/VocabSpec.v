(** What a vocabulary has to do: vocabulary of the statements in VocabProps. *)
From Verif Require Import Base PyDict BpeModel VocabModel.
Local Open Scope Z_scope.

(** the dict uses exactly the ids 0, ..., n - 1 *)
Definition uses_ids (d : dict str Z) (n : Z) : Prop := forall i, (exists l, dget d l = Some i) <-> 0 <= i < n.

(** alphabetical order, by code points *)
Definition not_after (a b : str) : Prop :=
  (exists r, b = a ++ r) \/ exists p x y a' b', a = p ++ x :: a' /\ b = p ++ y :: b' /\ (x < y)%nat.

(** no label twice *)
Definition distinct_labels (s : source) : Prop :=
  match s with SLabels l => NoDup l | SLines _ => True | SDict d => dict_ok d end.
(** neither a label nor an id twice *)
Definition distinct_ids (s : source) : Prop :=
  match s with SLabels l => NoDup l | SLines _ => True | SDict d => dict_ok d /\ NoDup (dvals d) end.

(** an unknown label that the vocabulary can use: none, one of its labels, or one of its n ids *)
Definition unknown_ok (d : dict str Z) (n : Z) (u : label_arg) : Prop :=
  match u with LNone => True | LStr s => dget d s <> None | LInt i => -1 <= i < n end.

Section Text.
  Variable is_space : nat -> bool.
  Definition blank (s : str) : Prop := forall c, In c s -> is_space c = true.
  (** a word: not empty and without white space *)
  Definition word (w : str) : Prop := w <> [] /\ forall c, In c w -> is_space c = false.
  (** the words of a sentence *)
  Inductive words_of : str -> list str -> Prop :=
  | no_words s : blank s -> words_of s []
  | last_word s w : blank s -> word w -> words_of (s ++ w) [w]
  | more_words s w c t ws : blank s -> word w -> is_space c = true -> words_of t ws -> words_of (s ++ w ++ c :: t) (w :: ws).
End Text.

(** a Unicode scalar value: what UTF-8 can encode *)
Definition scalar_value (c : Z) : Prop := 0 <= c < 1114112 /\ ~ (55296 <= c < 57344).
