(** What the automata are expected to accept. *)
From Verif Require Import Base FsaModel.
Local Open Scope Z_scope.

(** The edges of one sequence of the batch, and the number of paths from a state to a state that emit a string. *)
Definition edges_of (f : fsa) (b : nat) : list edge := filter (fun e => (e_seq e =? b)%nat) (f_edges f).
Definition total (l : list nat) : nat := fold_right Nat.add O l.
Fixpoint count_paths (es : list edge) (s : nat) (xs : list Z) (t : nat) : nat :=
  match xs with
  | [] => if (s =? t)%nat then 1%nat else O
  | x :: xs' => total (map (fun e => count_paths es (e_to e) xs' t) (filter (fun e => (e_from e =? s)%nat && (e_emit e =? x)) es))
  end.
(** The number of paths for sequence [b] that emit [xs]. *)
Definition paths (f : fsa) (b : nat) (xs : list Z) : nat :=
  match nth_error (f_start_end f) b with
  | Some (s, t) => count_paths (edges_of f b) s xs t
  | None => O
  end.

(** CTC: merge repeated labels, then drop blanks. *)
Fixpoint merge_repeated (xs : list Z) : list Z :=
  match xs with
  | x :: (y :: _) as r => if x =? y then merge_repeated r else x :: merge_repeated r
  | _ => xs
  end.
Definition collapse (blank : Z) (xs : list Z) : list Z := filter (fun x => negb (x =? blank)) (merge_repeated xs).
Definition exactly (b : bool) : nat := if b then 1%nat else O.
Definition list_eqb (a b : list Z) : bool := if list_eq_dec Z.eq_dec a b then true else false.

(** Automata of different sequences do not share states. *)
Definition separate (f : fsa) : Prop :=
  (forall e, In e (f_edges f) -> exists s t, nth_error (f_start_end f) (e_seq e) = Some (s, t) /\
     (s <= e_from e <= t /\ s <= e_to e <= t)%nat) /\
  (forall b s t s' t', nth_error (f_start_end f) b = Some (s, t) -> nth_error (f_start_end f) (S b) = Some (s', t') -> (s <= t < s')%nat).

(** Staircase without loops: a strictly increasing string of positions below the length. A step from [i] to [j] has to
    be allowed, where the first step starts at 0 and the last one ends at the length. *)
Definition step_ok (len : nat) (limit : nat -> nat) (i j : nat) : bool :=
  (i <? j)%nat && (j <=? len)%nat && ((limit i =? 0)%nat || (j <=? i + limit i)%nat).
Fixpoint steps_ok (len : nat) (limit : nat -> nat) (i : nat) (xs : list nat) : bool :=
  match xs with
  | [] => step_ok len limit i len
  | x :: xs' => step_ok len limit i x && steps_ok len limit x xs'
  end.
Definition stair_ok (len : nat) (limit : nat -> nat) (xs : list nat) : bool :=
  match xs with
  | [] => false
  | x :: xs' => (x <? match xs' with [] => len | y :: _ => y end)%nat && steps_ok len limit 0 xs'
  end.
(** Staircase with loops and without limits: a non-decreasing string of positions. *)
Fixpoint non_decreasing (xs : list nat) : bool :=
  match xs with
  | x :: (y :: _) as r => (x <=? y)%nat && non_decreasing r
  | _ => true
  end.
Definition loop_ok (len : nat) (xs : list nat) : bool :=
  match xs with [] => false | _ => non_decreasing xs && forallb (fun x => x <? len)%nat xs end.
(** The limit for the step from [i]: the one for the start, else the one for the end if the end is that close, else the
    general one; 0 stands for no limit. *)
Definition first_limit (l : list nat) : nat := match filter (fun n => negb (n =? 0)%nat) l with n :: _ => n | [] => O end.
Definition limit_at (len m sm em i : nat) : nat :=
  first_limit [if (i =? 0)%nat then sm else O; if (len - i <=? em)%nat then em else O; m].

(** The language of an automaton that is built edge by edge: paths from state 0 to the last state. *)
Definition shared_of (l : list (nat * nat * Z)) : shared := fold_left (fun s '(q, t, x) => add_edge s q t x) l shared_new.
Definition one_edge (e : nat * nat * Z) : edge := let '(q, t, x) := e in mk q t x 0.
Definition last_of (l : list (nat * nat * Z)) : nat := fold_right Nat.max O (map (fun '(q, t, _) => Nat.max q t) l).
