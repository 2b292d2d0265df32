(** Vocabulary for C26. *)
From Coq Require Import Permutation.
From Verif Require Import Base BatchSetModel.

(** How many batches the user has passed with [advance] since the last [reset]. *)
Definition passed {B} (h : list (op B * answer B)) : nat :=
  fold_left (fun n oa => match fst oa with Advance k => n + k | Reset _ => 0 | _ => n end) h 0.
(** The calls since the last [reset]. *)
Definition this_epoch {B} (h : list (op B * answer B)) : list (op B * answer B) :=
  fold_left (fun e oa => match fst oa with Reset _ => [] | _ => e ++ [oa] end) h [].
(** All answers are those of somebody who reads [all] in order: [peek n] shows the next [n], [has_more] tells whether there are any, [advance n] needs [n] more. *)
Fixpoint reads {B} (all : list B) (pos : nat) (h : list (op B * answer B)) : Prop :=
  match h with
  | [] => True
  | (Peek n, Peeked bs) :: h' => bs = firstn n (skipn pos all) /\ reads all pos h'
  | (Advance n, Advanced) :: h' => 0 < n /\ pos + n <= length all /\ reads all (pos + n) h'
  | (HasMore, More b) :: h' => (b = true <-> pos < length all) /\ reads all pos h'
  | _ => False
  end.
(** All shuffles in the history permute. *)
Definition fair {B} (h : list (op B * answer B)) : Prop := forall sh a, In (Reset sh, a) h -> forall l, Permutation (sh l) l.
