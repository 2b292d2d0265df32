(** Vocabulary for the selection of hypotheses in nested states. *)
From Coq Require Import List Bool Arith.
From Verif Require Import Base NestModel.
Import ListNotations.

(** The size of a dim, which can depend on the position in other dims. *)
Definition size_at (s : store) (d : nat) (r : pos) : nat :=
  match nth_error s d with
  | Some (Static n) => n
  | Some (Dyn t) => tval t r
  | None => 0
  end.

(** A position which is within a tensor, without padding. *)
Definition inside (s : store) (t : tensor) (r : pos) : Prop :=
  forall d, In d (tdims t) -> r d < size_at s d r.

(** The entries of a tensor depend on the positions in its dims only. *)
Definition proper (t : tensor) : Prop :=
  forall r r', (forall d, In d (tdims t) -> r d = r' d) -> tval t r = tval t r'.

(** A dim which has different sizes for different hypotheses. *)
Definition per_hyp (s : store) (beam d : nat) : Prop :=
  exists t, nth_error s d = Some (Dyn t) /\ In beam (tdims t).

(** A state of hypotheses: dims exist, the sizes of dims do not depend on positions in
    other dims which differ per hypothesis, and the indices refer to hypotheses. *)
Record state_ok (s : store) (i : indices) (ls : list leaf) : Prop := {
  ok_sizes : forall d t, nth_error s d = Some (Dyn t) ->
    proper t /\ forall k, In k (tdims t) -> ~ per_hyp s (sparse i) k;
  ok_tensor : forall t, In (LTensor t) ls ->
    proper t /\ NoDup (tdims t) /\ forall k, In k (tdims t) -> k < length s;
  ok_dim : forall d, In (LDim d) ls -> d < length s;
  ok_leaf : ~ In LOther ls;
  ok_beam : sparse i < length s /\ ~ per_hyp s (sparse i) (sparse i);
  ok_idx_dims : forall k, In k (tdims (itensor i)) -> k < length s /\ ~ per_hyp s (sparse i) k;
  ok_idx : forall r, inside s (itensor i) r -> tval (itensor i) r < size_at s (sparse i) r
}.

(** The structure has all the dims of its tensors whose sizes differ per hypothesis. *)
Definition complete (s : store) (i : indices) (ls : list leaf) : Prop :=
  forall t d, In (LTensor t) ls -> In d (tdims t) -> per_hyp s (sparse i) d -> In (LDim d) ls.

(** The position in the old state which belongs to a position in the new state, when the dim
    [d] got the name [names d]: the hypothesis is the one given by the indices. *)
Definition old_pos (i : indices) (names : nat -> nat) (r : pos) : pos :=
  fun d => if Nat.eqb d (sparse i) then tval (itensor i) r else r (names d).

(** The new state is the selection of hypotheses of the old state: sizes and entries are
    those of the selected hypotheses, and all positions within the new tensors come from
    positions within the old ones. *)
Definition selected (s : store) (i : indices) (ls : list leaf) (s' : store) (ls' : list leaf)
    (names : nat -> nat) : Prop :=
  length ls' = length ls /\
  (forall k d, nth_error ls k = Some (LDim d) ->
     nth_error ls' k = Some (LDim (names d)) /\
     (d <> sparse i -> forall r, size_at s' (names d) r = size_at s d (old_pos i names r))) /\
  (forall k t, nth_error ls k = Some (LTensor t) ->
     exists t', nth_error ls' k = Some (LTensor t') /\
       (forall d', In d' (tdims t') <->
          (exists d, In d (tdims t) /\ d <> sparse i /\ d' = names d) \/
          (In (sparse i) (tdims t) /\ In d' (tdims (itensor i)))) /\
       (forall r, tval t' r = tval t (old_pos i names r)) /\
       (forall r, inside s' t' r -> inside s t (old_pos i names r))).
