(** What convolution and pooling mean for a single sequence, and padded batches of sequences. *)
From Verif Require Import Base ConvModel.
Local Open Scope nat_scope.

(** frames before the first frame that the first window covers; for "same" the windows are around the frames *)
Definition left_pad (c : conf) : nat :=
  match pad c with Valid => 0 | Pad q => q | Same => (size c - 1) * dilation c / 2 end.

(** the last frame that window [i] covers is inside of the padded sequence of [n] frames, or for "same" the window is around a
    frame of the sequence *)
Definition window_fits (c : conf) (n i : nat) : Prop :=
  match pad c with
  | Valid => i * stride c + (size c - 1) * dilation c < n
  | Pad q => i * stride c + (size c - 1) * dilation c < q + n + q
  | Same => i * stride c < n
  end.
(** [m] is the number of windows of a sequence of [n] frames *)
Definition windows (c : conf) (n m : nat) : Prop := forall i, i < m <-> window_fits c n i.

Section Frames.
Context {A B : Type}.

(** frame [t] of the sequence, [v] before and after it *)
Definition frame (v : A) (x : list A) (t : Z) : A := if (t <? 0)%Z then v else nth (Z.to_nat t) x v.
Definition frame_opt (x : list A) (t : Z) : option A := if (t <? 0)%Z then None else nth_error x (Z.to_nat t).
(** the position of the [j]-th frame of window [i], with [l] frames of padding *)
Definition position (c : conf) (l i j : nat) : Z := (Z.of_nat (i * stride c + j * dilation c) - Z.of_nat l)%Z.

(** [y] is the result of [W] on each window of the sequence [x], with [v] around it *)
Definition result_of (W : list A -> B) (v : A) (c : conf) (x : list A) (y : list B) : Prop :=
  windows c (length x) (length y) /\
  (forall i, i < length y ->
     nth_error y i = Some (W (map (fun j => frame v x (position c (left_pad c) i j)) (seq 0 (size c))))).
(** the same when [W] gets to know which frames are outside *)
Definition result_of_opt (W : list (option A) -> B) (c : conf) (x : list A) (y : list B) : Prop :=
  windows c (length x) (length y) /\
  (forall i, i < length y ->
     nth_error y i = Some (W (map (fun j => frame_opt x (position c (left_pad c) i j)) (seq 0 (size c))))).

(** [lens] and [rows] are the sequences [xs] as a padded tensor, which is as long as the longest sequence; any values after the
    end of a sequence *)
Definition padded {T} (xs : list (list T)) (lens : list nat) (rows : list (list T)) : Prop :=
  lens = map (@length T) xs /\
  Forall2 (fun x row => (exists junk, row = x ++ junk) /\ length row = list_max lens) xs rows.
(** the same with the value [v] after the end of a sequence *)
Definition padded_with {T} (v : T) (xs : list (list T)) (lens : list nat) (rows : list (list T)) : Prop :=
  lens = map (@length T) xs /\
  Forall2 (fun x row => exists k, row = x ++ repeat v k /\ length row = list_max lens) xs rows.

(** [W] makes no difference between a frame outside and the value [v], as the maximum with negative infinity *)
Definition ignores (v : A) (W : list (option A) -> B) : Prop :=
  forall l1 l2, Forall2 (fun a b => a = b \/ ((a = None \/ a = Some v) /\ (b = None \/ b = Some v))) l1 l2 -> W l1 = W l2.
End Frames.

Definition positive (c : conf) : Prop := 0 < size c /\ 0 < stride c /\ 0 < dilation c.
(** "same" with a stride uses the new consistent padding *)
Definition consistent_same (c : conf) : Prop := pad c = Same -> 1 < stride c -> consistent c = true.
(** "same" without a stride, for an odd filter, has no dilation *)
Definition undilated_same (c : conf) : Prop :=
  pad c = Same -> stride c = 1 -> size c mod 2 = 1 -> size c = 1 \/ dilation c = 1.
(** frames after the end of a sequence are masked, or there is no padding *)
Definition masks (c : conf) : Prop := use_mask c = true \/ pad c = Valid.
