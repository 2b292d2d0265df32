(** What SpecAugment should do. *)
From Coq Require Import Permutation.
From Verif Require Import Base SpecAugModel.

(** Masks are intervals, given by their start and their length. *)
Definition covered (masks : list (nat * nat)) (i : nat) : bool := existsb (fun pa => (fst pa <=? i) && (i <? fst pa + snd pa)) masks.
(** Between [lo] and [hi] masks of at most [max_dims] positions with different starts; as many as possible start inside of the
    sequence of [len] positions. *)
Definition masks_ok (len max_dims : nat) (range : nat * nat) (masks : list (nat * nat)) : Prop :=
  fst range <= length masks <= snd range /\ NoDup (map fst masks) /\ (forall p a, In (p, a) masks -> 1 <= a <= max_dims) /\
  length (filter (fun p => fst p <? len) masks) = Nat.min (length masks) len.

(** The phase of the training: after how many of the given steps we are *)
Definition phase (o : options) : nat :=
  match step o with
  | None => 3
  | Some s => let '(a, b, c) := steps o in if s <? a then 0 else if s <? b then 1 else if s <? c then 2 else 3
  end.
Definition steps_sorted (o : options) : Prop := let '(a, b, c) := steps o in a <= b <= c.
(** The fewest and the most masks in each phase *)
Definition feature_range (o : options) (n_feat : nat) : nat * nat :=
  if max_consecutive_feature o n_feat =? 0 then (0, 0) else nth (phase o) [(0, 0); (0, 2); (1, 3); (2, 5)] (0, 0).
Definition time_range (o : options) (n_time : nat) : nat * nat :=
  if (max_spatial o =? 0) || (factor o =? 0) then (0, 0)
  else let m := Nat.max 2 (n_time / factor o) in
       let '(lo, hi) := nth (phase o) [(0, 0); (0, m); (1, 2 * m); (2, 4 * m)] (0, 0) in (Nat.min lo n_time, Nat.min hi n_time).

(** The number at a frame and a feature *)
Definition entry (x : list (list Z)) (t f : nat) : option Z := match nth_error x t with Some frame => nth_error frame f | None => None end.
(** [y] is [x], but zero in the masks over time (inside of the sequence) and over the features. *)
Definition masked_by (len : nat) (time_masks feature_masks : list (nat * nat)) (x y : list (list Z)) : Prop :=
  map (@length Z) y = map (@length Z) x /\
  forall t f v, entry x t f = Some v -> entry y t f = Some (if (t <? len) && covered time_masks t || covered feature_masks f then 0%Z else v).
(** The random order is one of all positions. *)
Definition order_ok (n : nat) (r : rng) : Prop := forall b, Permutation (r_order r b) (seq 0 n).
(** A padded batch *)
Definition batch_ok (n_time n_feat : nat) (lens : nat -> nat) (xs : list (list (list Z))) : Prop :=
  xs <> [] /\ (forall b, lens b <= n_time) /\ Forall (fun x => length x = n_time /\ Forall (fun frame => length frame = n_feat) x) xs.
