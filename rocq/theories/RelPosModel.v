(** Model of relative positions in self-attention: /repo/returnn/frontend/attention.py [_rel_pos_enc_shift], [_make_indices],
    [LearnedRelativePositionalEncoding], on tensors with named dims, with /repo/returnn/torch/frontend/_backend.py [pad], [slice],
    [reshape].

    [size d] is [d.get_dim_value()] for a dim with this name. *)
From Verif Require Import Base TensorModel MatmulModel ReshapeModel.
Local Open Scope nat_scope.

(** [torch.nn.functional.pad] by one zero on the left of one axis *)
Definition pad_one_raw (r : raw) (axis : nat) : raw :=
  tabulate (replace_at axis (shape r) (S (nth axis (shape r) 0)))
    (fun i => match nth axis i 0 with 0 => 0%Z | S k => at_ r (replace_at axis i k) end).
(** [rf.pad] of a static dim with padding (1, 0) and value 0, torch/frontend/_backend.py 453-492: [out] is the dim [1 + axis] *)
Definition pad_one (t : tensor) (axis out : dim) : res tensor :=
  let* i := axis_of (dims t) axis in
  Ok {| dims := replace_dim_at i (dims t) out; traw := pad_one_raw (traw t) i |}.
(** [torch.narrow] *)
Definition narrow_checked (r : raw) (axis start n : nat) : res raw :=
  if start + n <=? nth axis (shape r) 0 then Ok (narrow r axis start n) else Err OtherException.
(** [rf.slice] with a start and no end, torch/frontend/_backend.py 1157-1179: [out] is the dim [axis.sub_left(start)] *)
Definition slice_start (size : nat -> nat) (t : tensor) (axis : dim) (start : nat) (out : dim) : res tensor :=
  let* i := axis_of (dims t) axis in
  let* _ := if start <=? size (d_base axis) then Ok tt else Err OtherException in
  let* r := narrow_checked (traw t) i start (size (d_base axis) - start) in
  Ok {| dims := replace_dim_at i (dims t) out; traw := r |}.
(** [rf.slice] with a dim as size *)
Definition slice_size (size : nat -> nat) (t : tensor) (axis out : dim) : res tensor :=
  let* i := axis_of (dims t) axis in
  let* r := narrow_checked (traw t) i 0 (size (d_base out)) in
  Ok {| dims := replace_dim_at i (dims t) out; traw := r |}.

(** [_rel_pos_enc_shift], attention.py 503-525. The dims [padded] = 1 + pos (514-516) and [cut] = padded.sub_left(1) (521) are new
    dims, or such that were made before for the same sizes; [verify_out_shape] (524) is left out. *)
Definition rel_shift (size : nat -> nat) (x : tensor) (axis pos hist padded cut : dim) : res tensor :=
  if deq pos hist then Ok x
  else
    let* x := pad_one x pos padded in
    let* x := reshape_dims size x [axis; padded] [padded; axis] in
    let* x := slice_start size x padded 1 cut in
    let* x := reshape_dims size x [cut; axis] [axis; cut] in
    slice_size size x cut hist.

(** [_make_indices] for sequences, attention.py 866-891: [q] and [kv] are the sizes; range(q - 1) - (q - 1), then range(kv). A
    negative size gives an empty range. *)
Definition make_indices (q kv : nat) (offset : option Z) : list Z :=
  let l := map (fun i => (Z.of_nat i - Z.of_nat (q - 1))%Z) (seq 0 (q - 1)) ++ map Z.of_nat (seq 0 kv) in
  match offset with Some o => map (fun i => (i - o)%Z) l | None => l end.
(** for a single step, 858-865 and 889-890; the size [n] of the history is that of one sequence *)
Definition make_indices_step (kv n : nat) : list Z := map (fun i => (Z.of_nat i - (Z.of_nat n - 1))%Z) (seq 0 kv).

(** [LearnedRelativePositionalEncoding.__call__], attention.py 814-820: the row of the embedding matrix, of the
    (1 if causal else 2) * clipping + 1 rows *)
Definition clip (lo hi x : Z) : Z := Z.min (Z.max x lo) hi.
Definition learned_row (clipping : nat) (causal : bool) (i : Z) : Z :=
  (clip (- Z.of_nat clipping) (if causal then 0 else Z.of_nat clipping) i + Z.of_nat clipping)%Z.
Definition num_rows (clipping : nat) (causal : bool) : nat := (if causal then 1 else 2) * clipping + 1.
(** [rf.gather] with an index outside is an error *)
Definition lookup {A} (table : list A) (i : Z) : res A :=
  if (i <? 0)%Z then Err OtherException else match nth_error table (Z.to_nat i) with Some x => Ok x | None => Err OtherException end.
Definition learned_encoding {A} (table : list A) (clipping : nat) (causal : bool) (indices : list Z) : res (list A) :=
  mapM (fun i => lookup table (learned_row clipping causal i)) indices.
(** [full_matrix], 834-847: without an offset for a sequence, [q_pos_vec + None] is an error *)
Definition full_matrix {A} (table : list A) (clipping : nat) (causal : bool) (q kv : nat) (offset : option Z) : res (list (list A)) :=
  match offset with
  | None => Err OtherException
  | Some o => mapM (fun t => mapM (fun s => lookup table (learned_row clipping causal (Z.of_nat s - (Z.of_nat t + o)))) (seq 0 kv)) (seq 0 q)
  end.
Definition full_matrix_step {A} (table : list A) (clipping : nat) (causal : bool) (n : nat) : res (list A) :=
  mapM (fun s => lookup table (learned_row clipping causal (Z.of_nat s - (Z.of_nat n - 1)))) (seq 0 n).
