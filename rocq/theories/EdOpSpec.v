(** What the native edit distance operations should compute. *)
From Verif Require Import Base EditSpec.

(** The sequence of the batch entry [k] in a padded flat array with rows of width [w]: its first [len] symbols *)
Definition seq_of (w : nat) (arr : list Z) (k len : nat) : list Z := firstn len (skipn (k * w) arr).

(** The best which can be reached when the sequence [a] is continued by an arbitrary suffix *)
Definition is_optimal_completion {A} (a b : list A) (d : nat) : Prop :=
  (exists s, is_edit_distance (a ++ s) b d) /\ (forall s m, is_edit_distance (a ++ s) b m -> d <= m).

(** An order in which the [n] iterations of a kernel may run *)
Definition any_order (n : nat) (order : list nat) : Prop := forall i, In i order <-> i < n.

(** A row of the table of edit distances: the entry [t] is the distance of [a] to the first [t] symbols of [b].
    [has_row]: at least for all the prefixes of [b] *)
Definition has_row (a b row : list Z) : Prop :=
  forall t, t <= length b -> exists d, nth_error row t = Some (Z.of_nat d) /\ is_edit_distance a (firstn t b) d.
(** [is_row]: all the [w + 1] entries, where the last one is repeated *)
Definition is_row (a b row : list Z) (w : nat) : Prop :=
  length row = w + 1 /\
  forall t, t <= w -> exists d, nth_error row t = Some (Z.of_nat d) /\ is_edit_distance a (firstn t b) d.

(** The answer of a reduction of a row *)
Definition is_answer (optimal_completion : bool) (a b : list Z) (d : nat) : Prop :=
  if optimal_completion then is_optimal_completion a b d else is_edit_distance a b d.
(** The labels which count, of labels with the flag whether the sequence had ended before *)
Definition labels (blank : Z) (xs : list (Z * bool)) : list Z := map fst (filter (fun xe => negb (snd xe) && negb (fst xe =? blank)%Z) xs).
