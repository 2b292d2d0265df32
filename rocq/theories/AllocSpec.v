(** What the table of the cached sequences means. *)
From Coq Require Import Permutation.
From Verif Require Import Base AllocModel.

Section Spec.
Context {F : Type}.
Variable zero : F.
Variable N : nat.
Variable data : nat -> list F.

(** Sequence [j] is in the table. *)
Definition covered (al : list (@interval F)) (j : nat) : Prop := exists x, In x al /\ (i_start x <= j < i_end x)%nat.
Definition coveredb (al : list (@interval F)) (j : nat) : bool := existsb (fun x => (i_start x <=? j)%nat && (j <? i_end x)%nat) al.
(** ... with these frames: they come after those of the earlier sequences of the interval. *)
Definition holds (al : list (@interval F)) (j : nat) (fs : list F) : Prop :=
  exists x, In x al /\ (i_start x <= j < i_end x)%nat /\
    firstn (length (data j)) (skipn (seq_start data j - seq_start data (i_start x)) (i_data x)) = fs.
(** The intervals are sorted and disjoint, each has the frames of all its sequences, and there is an empty one at each end. *)
Fixpoint chain (lo : nat) (al : list (@interval F)) : Prop :=
  match al with
  | [] => (lo <= N)%nat
  | x :: r => (lo <= i_start x < i_end x)%nat /\ length (i_data x) = (seq_start data (i_end x) - seq_start data (i_start x))%nat /\ chain (i_end x) r
  end.
Definition table (al : list (@interval F)) : Prop :=
  exists mid : list interval, al = ((0%nat, 0%nat, [zero]) : interval) :: mid ++ [((N, N, [zero]) : interval)] /\ chain 0 mid /\ (0 < N)%nat.

(** All frames of the table, without those of the start cache. *)
Definition extra_frames (c : nat) (al : list (@interval F)) : nat :=
  list_sum (map (fun j => if coveredb al j then length (data j) else 0%nat) (seq c (N - c))).

(** The cache has just what it says that it has, with the frames of the files, and all of the start cache. *)
Definition cache_ok (st : @cache F) : Prop :=
  table (k_alloc st) /\ (forall j, In j (k_preload st) <-> covered (k_alloc st) j) /\
  (forall j, covered (k_alloc st) j -> holds (k_alloc st) j (data j)) /\ (k_at_start st <= N)%nat /\
  (forall j, (j < k_at_start st)%nat -> covered (k_alloc st) j).
(** Frames of the sequences in a range. *)
Definition frames (imap : nat -> nat) (a b : nat) : nat := list_sum (map (fun i => length (data (imap i))) (seq a (b - a))).
End Spec.

Section Order.
Context {F : Type}.
Variable zero : F.
Variable corpus : nat -> list F.
Variable limit : nat.
(** The current order: the sequences of the files. *)
Definition current (d : @dataset F) : list nat := map (fun j => nth j (d_index d) 0%nat) (d_map d).
(** An order that [init_order] takes: if it has as many sequences as the start cache, these are the sequences of the order of the
    start cache. *)
Definition allowed (d : @dataset F) (order : list nat) : Prop :=
  order <> [] /\ (k_at_start (d_cache d) = length order -> Permutation order (d_index d)).
(** The states of a dataset: epochs with any allowed orders, and any ranges of sequences loaded in each. *)
Inductive history (free : nat) : @dataset F -> Prop :=
| h_new : history free (new_dataset free)
| h_order : forall d order d', history free d -> allowed d order -> init_order zero corpus limit order d = Ok d' -> history free d'
| h_load : forall d start end_ d', history free d -> (start <= end_ <= length (d_map d))%nat -> d_load zero corpus start end_ d = Ok d' -> history free d'.
End Order.
