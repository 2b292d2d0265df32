(** Paths of automata and their scores. *)
From Verif Require Import Base FsaModel FsaSpec.
Local Open Scope nat_scope.

(** ** Paths *)
(** a list of edges, with weights, that leads from state [s] to state [s'] *)
Fixpoint connects {W} (s : nat) (p : list (edge * W)) (s' : nat) : bool :=
  match p with
  | [] => s =? s'
  | ew :: p' => (e_from (fst ew) =? s) && connects (e_to (fst ew)) p' s'
  end.
Definition labels {W} (p : list (edge * W)) : list Z := map (fun ew => e_emit (fst ew)) p.
(** the lists of [n] members of a list *)
Fixpoint tuples {X} (l : list X) (n : nat) : list (list X) :=
  match n with 0 => [[]] | S n' => flat_map (fun x => map (cons x) (tuples l n')) l end.

(** The states are those of different sequences: [owner] says of which. *)
Record batch_of {W} (owner : nat -> nat) (start_end : list (nat * nat)) (edges : list (edge * W)) : Prop := {
  bo_edges : forall e w, In (e, w) edges -> owner (e_from e) = e_seq e /\ owner (e_to e) = e_seq e;
  bo_start : forall b s s', nth_error start_end b = Some (s, s') -> owner s = b /\ owner s' = b
}.

(** ** Best paths *)
Section Best.
Context {V : Type} (ltb : V -> V -> bool) (add : V -> V -> V) (bot zero : V).
Definition not_above (a b : V) : Prop := ltb b a = false.
(** The order is total up to equal values, and the addition is monotonic, like the one of floats. *)
Record score_laws : Prop := {
  sl_irr : forall a, ltb a a = false;
  sl_trans : forall a b c, ltb a b = true -> ltb b c = true -> ltb a c = true;
  sl_total : forall a b c, not_above a b -> not_above b c -> not_above a c;
  sl_mono : forall a b x, not_above a b -> not_above (add a x) (add b x);
  sl_bot : forall a, not_above bot a;
  sl_add_bot : forall x, not_above (add bot x) bot
}.
Context (am : nat -> nat -> Z -> V).
(** the score of a path that starts at frame [t] with the score [v] *)
Fixpoint path_score (t : nat) (v : V) (p : list (edge * V)) : V :=
  match p with
  | [] => v
  | (e, w) :: p' => path_score (S t) (add (add v w) (am t (e_seq e) (e_emit e))) p'
  end.
Definition complete_path (edges : list (edge * V)) (s s' n : nat) (p : list (edge * V)) : Prop :=
  length p = n /\ (forall ew, In ew p -> In ew edges) /\ connects s p s' = true.
(** [v] is the best score of all complete paths, and [xs] are the labels of a path with this score, if the score is not
    the negative infinity. *)
Definition best_of (edges : list (edge * V)) (s s' n : nat) (xs : list Z) (v : V) : Prop :=
  (forall p, complete_path edges s s' n p -> not_above (path_score 0 zero p) v)
  /\ (ltb bot v = true -> exists p, complete_path edges s s' n p /\ labels p = xs /\ path_score 0 zero p = v).
End Best.

(** ** Cells that are updated by many threads *)
(** the updates of one cell, in order *)
Definition at_cell {K U} (eqb : K -> K -> bool) (x : K) (gs : list (K * U)) : list U := map snd (filter (fun g => eqb x (fst g)) gs).
(** [c] is not better than [d]: by the value, and with [strict] also by the index, where the smaller one is better *)
Definition below {V} (ltb : V -> V -> bool) (strict : bool) (c d : Z * V) : Prop :=
  if strict then ltb (snd c) (snd d) = true \/ (not_above ltb (snd c) (snd d) /\ not_above ltb (snd d) (snd c) /\ (fst d <= fst c)%Z)
  else not_above ltb (snd c) (snd d).

(** ** Sums over paths *)
Section Sum.
Context {T : Type} (add mul quot : T -> T -> T) (zero one : T) (is_zero : T -> bool).
Record number_laws : Prop := {
  nl_add_comm : forall a b, add a b = add b a;
  nl_add_assoc : forall a b c, add a (add b c) = add (add a b) c;
  nl_add_zero : forall a, add zero a = a;
  nl_mul_comm : forall a b, mul a b = mul b a;
  nl_mul_assoc : forall a b c, mul a (mul b c) = mul (mul a b) c;
  nl_mul_one : forall a, mul one a = a;
  nl_mul_zero : forall a, mul zero a = zero;
  nl_distr : forall a b c, mul a (add b c) = add (mul a b) (mul a c);
  nl_positive : forall a b, add a b = zero -> a = zero;
  nl_is_zero : forall a, is_zero a = true <-> a = zero;
  nl_quot_add : forall a b s, s <> zero -> quot (add a b) s = add (quot a s) (quot b s);
  nl_quot_zero : forall s, s <> zero -> quot zero s = zero
}.
Definition sum_over {X} (l : list X) (f : X -> T) : T := fold_right (fun x a => add (f x) a) zero l.
Context (am : nat -> nat -> Z -> T).
(** the weight of a path that starts at frame [t] *)
Fixpoint path_weight (t : nat) (p : list (edge * T)) : T :=
  match p with
  | [] => one
  | (e, w) :: p' => mul (mul w (am t (e_seq e) (e_emit e))) (path_weight (S t) p')
  end.
(** the sum over all paths of [n] edges from [s] to [s'] for which [P] holds *)
Definition sum_paths (edges : list (edge * T)) (s s' n : nat) (P : list (edge * T) -> bool) : T :=
  sum_over (filter (fun p => connects s p s' && P p) (tuples edges n)) (path_weight 0).
Definition has_label (t : nat) (c : Z) (p : list (edge * T)) : bool :=
  match nth_error (labels p) t with Some c' => (c' =? c)%Z | None => false end.
Definition any_path (p : list (edge * T)) : bool := true.

(** the weight of a string of labels for sequence [b], from frame [t] *)
Fixpoint string_weight (b t : nat) (xs : list Z) : T :=
  match xs with [] => one | x :: xs' => mul (am t b x) (string_weight b (S t) xs') end.
End Sum.

(** ** CTC: sums and maxima over alignments *)
(** the sum over all strings of [n] labels that collapse to the targets, and for which [P] holds *)
Definition sum_alignments {T} (add mul : T -> T -> T) (zero one : T) (am : nat -> nat -> Z -> T) (b : nat) (alphabet : list Z) (blank : Z)
    (targets : list Z) (n : nat) (P : list Z -> bool) : T :=
  sum_over add zero (filter (fun xs => list_eqb targets (collapse blank xs) && P xs) (tuples alphabet n)) (string_weight mul one am b 0).
Definition label_at (t : nat) (c : Z) (xs : list Z) : bool := match nth_error xs t with Some c' => (c' =? c)%Z | None => false end.
(** the score of a string of labels for sequence [b], from frame [t] *)
Fixpoint string_score {V} (add : V -> V -> V) (am : nat -> nat -> Z -> V) (b t : nat) (v : V) (xs : list Z) : V :=
  match xs with [] => v | x :: xs' => string_score add am b (S t) (add v (am t b x)) xs' end.
