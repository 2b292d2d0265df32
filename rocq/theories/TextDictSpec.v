(** What should be read from a dict of texts, or of lists of texts with scores. *)
From Coq Require Import String.
From Verif Require Import Base TextDictModel.
Local Open Scope nat_scope.

(** Taking the parts of the given lengths off a list. *)
Fixpoint parts {A} (lens : list nat) (l : list A) : list (list A) :=
  match lens with
  | [] => []
  | n :: lens => firstn n l :: parts lens (skipn n l)
  end.
(** The first of those with the greatest score. *)
Definition first_best (l : list (Z * string)) (txt : string) : Prop :=
  exists i s, nth_error l i = Some (s, txt) /\ (forall j s' t', nth_error l j = Some (s', t') -> (s' <= s)%Z /\ (j < i -> (s' < s)%Z)).
(** What is read for a value with an encoding [enc] of texts. *)
Definition encoded (enc : string -> list nat) (fmt : format) (v : value) (f : features) : Prop :=
  match fmt, v with
  | FSingle, Text s => f = {| f_data := enc s; f_beam := None |}
  | FList, Beam l => exists txt flat lens, first_best l txt /\ f = {| f_data := enc txt; f_beam := Some (flat, lens, map fst l) |} /\
                       List.concat (parts lens flat) = flat /\ parts lens flat = map (fun x => enc (snd x)) l
  | _, _ => False
  end.
(** A value as described for the format. *)
Definition value_ok (fmt : format) (v : value) : Prop :=
  match fmt, v with FSingle, Text _ => True | FList, Beam l => l <> [] | _, _ => False end.
