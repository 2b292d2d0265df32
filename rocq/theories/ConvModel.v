(** Model of 1-D convolution and pooling over sequences: /repo/returnn/frontend/conv.py [conv], [pool],
    [make_conv_out_spatial_dims], [_consistent_same_padding], and /repo/returnn/torch/frontend/_backend.py [conv], [pool].

    A batch is the list of the sequence lengths and the list of the rows of the padded tensor, all as long as the longest
    sequence. A frame is a value of any type (all channels together). What a filter with its groups and bias, or the maximum or
    the average, makes of the frames of a window is a function [W]. One spatial dim; in the code the dims are treated one by
    one. *)
From Verif Require Import Base.
Local Open Scope nat_scope.

Inductive padding := Valid | Same | Pad (p : nat).
(** [filter_size] or [pool_size], [strides], [dilation_rate], [padding], [use_mask] after the default is applied, and the result
    of [_should_use_consistent_same_padding] *)
Record conf := {
  size : nat;
  stride : nat;
  dilation : nat;
  pad : padding;
  use_mask : bool;
  consistent : bool;
}.

(** conv.py 763-773, tensor/_dim_extra.py 1252-1253 *)
Definition ceildiv (a b : nat) : nat := (a + b - 1) / b.

(** conv.py 775-790: [_calc_out_dim] for the size of one sequence. The subtraction does not get below zero as in
    tensor/_dim_extra.py 1246-1247 and 1257-1261; there it is done for the left and for the right part one after the other. *)
Definition calc_out_dim (c : conf) (p : padding) (n : nat) : nat :=
  match p with
  | Same => ceildiv n (stride c)
  | Valid => ceildiv (n - (size c - 1) * dilation c) (stride c)
  | Pad q => ceildiv (q + n + q - (size c - 1) * dilation c) (stride c)
  end.

(** conv.py 721-746: [make_conv_out_spatial_dims] *)
Definition out_size (c : conf) (p : padding) (n : nat) : nat :=
  let no_pad := match p with Valid | Same | Pad 0 => true | _ => false end in
  let same := match p with Same => true | _ => false end in
  if ((size c =? 1) && (stride c =? 1) && no_pad) || ((stride c =? 1) && same) then n
  else calc_out_dim c p n.

(** [Dim.get_dim_value]: the longest sequence *)
Definition dim_value (lens : list nat) : nat := fold_right Nat.max 0 lens.

Section Frames.
Context {A B : Type}.

(** tensor/_tensor_extra.py 2915-2971: [copy_masked] of one row *)
Definition masked {T} (v : T) (n : nat) (row : list T) : list T :=
  map (fun tx => if fst tx <? n then snd tx else v) (combine (seq 0 (length row)) row).

(** [torch.nn.functional.pad] of one row with a constant; a negative number of frames is cut off *)
Definition frame_at (v : A) (row : list A) (t : Z) : A := if (t <? 0)%Z then v else nth (Z.to_nat t) row v.
Definition torch_pad (v : A) (left right : Z) (row : list A) : res (list A) :=
  let n := (Z.of_nat (length row) + left + right)%Z in
  if (n <? 0)%Z then Err OtherException
  else Ok (map (fun t => frame_at v row (Z.of_nat t - left)) (seq 0 (Z.to_nat n))).

(** [torch.nn.functional.conv1d] of one row without padding: it raises an error if the filter does not fit *)
Definition torch_conv1d (zero : A) (W : list A -> B) (k s d : nat) (row : list A) : res (list B) :=
  if length row <? (k - 1) * d + 1 then Err OtherException
  else Ok (map (fun i => W (map (fun j => nth (i * s + j * d) row zero) (seq 0 k)))
               (seq 0 ((length row - (k - 1) * d - 1) / s + 1))).

(** _backend.py 1911-1957: the frames added left and right, given the length of the raw tensor. Includes the padding that
    [conv1d] adds itself: the same on both sides for an integer, [dilation * (size - 1)] frames with the smaller half on the left
    for the string "same". Not in an ONNX export. *)
Definition conv_pads (c : conf) (p : padding) (L : nat) : Z * Z :=
  match p with
  | Valid => (0, 0)%Z
  | Pad q => (Z.of_nat q, Z.of_nat q)
  | Same =>
      if 1 <? stride c then
        let pad := (Z.of_nat (size c) - 1 - (Z.of_nat L - 1) mod Z.of_nat (stride c))%Z in
        let left := (pad / 2)%Z in
        (left, pad - left)%Z
      else if Nat.odd (size c) then (Z.of_nat ((size c - 1) / 2), Z.of_nat ((size c - 1) / 2))
      else
        let total := Z.of_nat (dilation c * (size c - 1)) in
        (total / 2, total - total / 2)%Z
  end.

(** _backend.py 1873-2003: [TorchBackend.conv] with one batch dim: the lengths and the raw tensor *)
Definition backend_conv (zero : A) (W : list A -> B) (c : conf) (p : padding) (lens : list nat) (rows : list (list A))
  : res (list nat * list (list B)) :=
  let '(pl, pr) := conv_pads c p (dim_value lens) in
  let* out := mapM (fun row => let* row := torch_pad zero pl pr row in
                               torch_conv1d zero W (size c) (stride c) (dilation c) row) rows in
  Ok (map (out_size c p) lens, out).

(** conv.py 827-868: [_consistent_same_padding]: the new rows, lengths and padding *)
Definition consistent_same_padding (v : A) (c : conf) (lens : list nat) (rows : list (list A))
  : res (list nat * list (list A) * padding) :=
  if Nat.odd (size c) then Ok (lens, rows, Pad (size c / 2 * dilation c))
  else
    let left := (size c - 1) * dilation c / 2 in
    let right := (size c - 1) * dilation c - left in
    let* rows := mapM (torch_pad v (Z.of_nat left) (Z.of_nat right)) rows in
    Ok (map (fun n => left + n + right) lens, rows, Pad 0).

(** the condition in conv.py 232 and 512 *)
Definition needs_consistent (c : conf) : bool :=
  match pad c with Same => negb (stride c =? 1) && consistent c | _ => false end.

(** conv.py 224-228, 504-508 *)
Definition mask_rows {T} (c : conf) (v : T) (lens : list nat) (rows : list (list T)) : list (list T) :=
  if use_mask c then map (fun nr => masked v (fst nr) (snd nr)) (combine lens rows) else rows.

(** conv.py 177-251: [conv] *)
Definition conv (zero : A) (W : list A -> B) (c : conf) (lens : list nat) (rows : list (list A))
  : res (list nat * list (list B)) :=
  let rows := mask_rows c zero lens rows in
  let* (lens, rows, p) :=
    if needs_consistent c then consistent_same_padding zero c lens rows else Ok (lens, rows, pad c) in
  backend_conv zero W c p lens rows.

(** [torch.nn.functional.max_pool1d] and [avg_pool1d] of one row: a window sees [None] for a frame outside of the row, which the
    maximum ignores, and the average as well with [count_include_pad=False]. The padding must be at most half of the window
    (of the dilated window in new versions of torch). The number of windows is [pooling_output_shape] of torch: in the ceil mode
    the last window may go over the end, but it must start inside of the row or its left padding. *)
Definition pool_frame (row : list A) (t : Z) : option A := if (t <? 0)%Z then None else nth_error row (Z.to_nat t).
Definition torch_pool1d (W : list (option A) -> B) (k s d : nat) (p : Z) (ceil_mode : bool) (row : list A) : res (list B) :=
  let L := Z.of_nat (length row) in
  let span := Z.of_nat ((k - 1) * d) in
  if ((p <? 0) || ((span + 1) / 2 <? p))%Z then Err OtherException
  else
    let out := ((L + p + p - span - 1 + (if ceil_mode then Z.of_nat s - 1 else 0)) / Z.of_nat s + 1)%Z in
    let out := if (ceil_mode && (L + p <=? (out - 1) * Z.of_nat s))%Z then (out - 1)%Z else out in
    if (out <? 1)%Z then Err OtherException
    else Ok (map (fun i => W (map (fun j => pool_frame row (Z.of_nat (i * s + j * d) - p)) (seq 0 k)))
                 (seq 0 (Z.to_nat out))).

(** _backend.py 2038-2053: the padding and the ceil mode *)
Definition pool_pads (c : conf) (p : padding) (L : nat) : Z * bool :=
  match p with
  | Same => ((Z.of_nat (size c) - 1 - (Z.of_nat L - 1) mod Z.of_nat (stride c)) / 2, true)%Z
  | Valid => (0%Z, false)
  | Pad q => (Z.of_nat q, false)
  end.

Inductive mode := Max | Avg.

(** _backend.py 2006-2070: [TorchBackend.pool]. The reshape at the end fails if the number of frames is another one than the
    longest sequence of the out dim. *)
Definition backend_pool (W : list (option A) -> B) (m : mode) (c : conf) (p : padding) (lens : list nat) (rows : list (list A))
  : res (list nat * list (list B)) :=
  let '(q, ceil_mode) := pool_pads c p (dim_value lens) in
  let* _ := match m with Avg => assert_ (dilation c =? 1) | Max => Ok tt end in
  let* out := mapM (torch_pool1d W (size c) (stride c) (dilation c) q ceil_mode) rows in
  let out_lens := map (out_size c p) lens in
  if forallb (fun row => length row =? dim_value out_lens) out then Ok (out_lens, out) else Err OtherException.

(** conv.py 444-536: [pool], after the defaults are applied. [v] is the mask value: negative infinity for the maximum, 0 for the
    average. [zero] is 0 in the output. *)
Definition pool (v : A) (zero : B) (W : list (option A) -> B) (m : mode) (c : conf) (lens : list nat) (rows : list (list A))
  : res (list nat * list (list B)) :=
  let rows := mask_rows c v lens rows in
  let* (lens, rows, p) :=
    if needs_consistent c then consistent_same_padding v c lens rows else Ok (lens, rows, pad c) in
  let* (out_lens, out) := backend_pool W m c p lens rows in
  match m with
  | Max => Ok (out_lens, mask_rows c zero out_lens out)
  | Avg => Ok (out_lens, out)
  end.
End Frames.
