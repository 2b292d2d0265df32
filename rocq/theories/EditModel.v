(** Model of [edit_distance] of frontend/loss.py. All operations work on each batch entry separately, so the model is
    given for the rows of one batch entry and applied to each of them. *)
From Verif Require Import Base.
Local Open Scope Z_scope.

(** [rf.slice] with start and size, frontend/array_.py; here of an axis without sequence lengths. *)
Definition slice {A} (l : list A) (start size : nat) : list A := firstn size (skipn start l).
(** Assignment to a slice of the buffer, [Parameter.assign_key] with [key=slice(start, start + len(value))];
    torch/frontend/_backend.py 789-805. *)
Definition assign_slice {A} (l : list A) (start : nat) (value : list A) : list A :=
  firstn start l ++ value ++ skipn (start + length value) l.
(** [rf.pad] with [handle_dynamic_dims=False]: zeros before and after the whole axis; torch/frontend/_backend.py 441-491. *)
Definition pad_both (l : list Z) (n : nat) : list Z := repeat 0 n ++ l ++ repeat 0 n.
(** [rf.gather] with [clip_to_valid=True]. *)
Definition gather_clip (l : list Z) (i : Z) : Z := nth (Z.to_nat (Z.max 0 (Z.min i (Z.of_nat (length l) - 1)))) l 0.

(** [buffer_offsets], frontend/loss.py 131. *)
Definition buffer_offset (nb m : nat) : nat := m * (nb + 1).
(** The new diagonal without its last entry, frontend/loss.py 151-171: the value at index [k] from the previous two
    diagonals. [d], [i] and [p] are the entries for the costs, [x] and [y] the labels. *)
Definition diagonal_entry (nb u k : nat) (d i p x y : Z) : Z :=
  let del_cost := d + 1 in
  let ins_cost := i + 1 in
  let sub_cost := p + (if x =? y then 0 else 1) in
  let min_cost := Z.min (Z.min del_cost ins_cost) sub_cost in
  if (Z.of_nat k >? Z.of_nat nb - Z.of_nat u) then min_cost else Z.of_nat u.
Definition diagonal (nb u : nat) (prev prev2 a_part b_flipped : list Z) : list Z :=
  map (fun k => diagonal_entry nb u k (nth k (slice prev 0 nb) 0) (nth k (slice prev 1 nb) 0) (nth k (slice prev2 1 nb) 0)
                  (nth k a_part 0) (nth k b_flipped 0)) (seq 0 nb).
(** One pass of the loop over the buffer, frontend/loss.py 138-176. *)
Definition step (nb : nat) (a_ext b_flipped : list Z) (u : nat) (buffer : list Z) : list Z :=
  let prev2 := slice buffer (buffer_offset nb (u mod 3)) (nb + 1) in
  let prev := slice buffer (buffer_offset nb ((u + 1) mod 3)) (nb + 1) in
  let cur := buffer_offset nb ((u + 2) mod 3) in
  let buffer := assign_slice buffer cur (diagonal nb u prev prev2 (slice a_ext (u - 1) nb) b_flipped) in
  assign_slice buffer (cur + nb) [Z.of_nat u].
(** The result is taken when the diagonal reaches the end of both sequences, frontend/loss.py 178-184. *)
Definition take_result (nb la lb u : nat) (buffer : list Z) (result : Z) : Z :=
  let end_offset_a := Z.of_nat nb + Z.of_nat la - Z.of_nat u in
  let end_offset_b := Z.of_nat nb - Z.of_nat lb in
  if end_offset_a =? end_offset_b then gather_clip buffer (Z.of_nat (buffer_offset nb ((u + 2) mod 3)) + end_offset_a) else result.
(** The loop over [u], frontend/loss.py 136. *)
Fixpoint loop (nb la lb : nat) (a_ext b_flipped : list Z) (us : list nat) (buffer : list Z) (result : Z) : Z :=
  match us with
  | [] => result
  | u :: us' =>
      let buffer' := step nb a_ext b_flipped u buffer in
      loop nb la lb a_ext b_flipped us' buffer' (take_result nb la lb u buffer' result)
  end.
(** [max_dist_err] for int32, frontend/loss.py 108. The entries of the buffer stay below the number of steps, so that
    the arithmetic does not overflow; integers are unbounded here. *)
Definition max_dist_err : Z := 2147483647.
(** After the sequences were swapped if needed, frontend/loss.py 121-186. The buffer starts with zeros
    (torch/frontend/_backend.py 737-741). *)
Definition distance (a b : list Z) (la lb : nat) : Z :=
  let na := length a in
  let nb := length b in
  loop nb la lb (pad_both a nb) (rev b) (seq 1 (na + nb)) (repeat 0 (3 * (nb + 1)))
    (if (la =? 0)%nat && (lb =? 0)%nat then 0 else max_dist_err).
(** [edit_distance], frontend/loss.py 96-186, for the rows [a] and [b], of which the first [la] and [lb] entries are
    the sequences. *)
Definition edit_distance (a b : list Z) (la lb : nat) : Z :=
  if (length a <? length b)%nat then distance b a lb la else distance a b la lb.
(** The whole batch. *)
Definition edit_distance_batch (rows : list (list Z * nat * (list Z * nat))) : list Z :=
  map (fun '((a, la), (b, lb)) => edit_distance a b la lb) rows.
