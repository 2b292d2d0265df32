(** What the operations on padded sequences mean for each sequence. Padded batches and [frame] are in [ConvSpec]. *)
From Verif Require Import Base ConvSpec PadOpsModel.
Local Open Scope nat_scope.

(** the start of a slice is the number [s], or not given *)
Definition start_of (s : nat) (st : slice_start) : Prop := st = StartInt (Z.of_nat s) \/ (s = 0 /\ st = NoStart).

Section Frames.
Context {A : Type}.

(** [y] is [x] moved by [d] positions to the right, or to the left if negative, with [v] where there is no frame *)
Definition moved (v : A) (d : Z) (x y : list A) : Prop :=
  length y = length x /\ forall t, t < length x -> nth_error y t = Some (frame v x (Z.of_nat t - d)).

(** [y] are the windows of [W] frames at every [s]-th position of [x], the first window starts [l] frames before the sequence *)
Definition windows_of (v : A) (W s l : nat) (x : list A) (y : list (list A)) : Prop :=
  forall i, i < length y -> nth_error y i = Some (map (fun j => frame v x (Z.of_nat (i * s + j) - Z.of_nat l)) (seq 0 W)).
(** one window per [s]-th frame *)
Definition same_count (s : nat) (x : list A) (y : list (list A)) : Prop := forall i, i < length y <-> i * s < length x.
(** one window per position where the window is inside of the sequence *)
Definition valid_count (W s : nat) (x : list A) (y : list (list A)) : Prop := forall i, i < length y <-> i * s + W <= length x.

(** the frames of [x] where the mask is set; the mask may be longer *)
Definition kept (x : list A) (mask : list bool) : list A := map fst (filter snd (combine x mask)).

(** a tensor with [nb] rows of [m] frames, and one of its elements *)
Definition shape {T} (nb m : nat) (rows : list (list T)) : Prop := length rows = nb /\ Forall (fun r => length r = m) rows.
Definition cell {T} (rows : list (list T)) (b t : nat) : option T :=
  match nth_error rows b with Some r => nth_error r t | None => None end.

(** the positions (sequence, time) of a tensor, sorted by sequence, or sorted by time *)
Definition positions (batch_major : bool) (nb m : nat) : list (nat * nat) :=
  if batch_major then list_prod (seq 0 nb) (seq 0 m)
  else map (fun tb => (snd tb, fst tb)) (list_prod (seq 0 m) (seq 0 nb)).
(** [out] are the elements where the mask is set, in this order *)
Definition selection (batch_major : bool) (nb m : nat) (rows : list (list A)) (mask : list (list bool)) (out : list A) : Prop :=
  Forall2 (fun p a => cell rows (fst p) (snd p) = Some a)
    (filter (fun p => match cell mask (fst p) (snd p) with Some b => b | None => false end) (positions batch_major nb m)) out.
(** [out] are all frames of the sequences in this order: one sequence after the other, or first the first frames of all sequences,
    and so on *)
Definition packed (batch_major : bool) (xs : list (list A)) (out : list A) : Prop :=
  Forall2 (fun p a => cell xs (fst p) (snd p) = Some a)
    (filter (fun p => match cell xs (fst p) (snd p) with Some _ => true | None => false end)
       (positions batch_major (length xs) (list_max (map (@length A) xs)))) out.
(** the mask is not set after the end of a sequence *)
Definition inside (lens : list nat) (mask : list (list bool)) : Prop :=
  forall b t n, nth_error lens b = Some n -> n <= t -> cell mask b t <> Some true.
End Frames.
