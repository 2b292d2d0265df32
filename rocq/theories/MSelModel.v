(** Model of packing by a mask and back, on tensors with named dims: /repo/returnn/torch/util/array_.py, and
    /repo/returnn/torch/frontend/_backend.py [masked_select], [masked_scatter]. See PadOpsModel for the padded sequences, and for
    masks with more dims. The mask is a tensor where 0 is false. *)
From Verif Require Import Base PySort TensorModel ReshapeModel.
Local Open Scope nat_scope.

Definition truths (r : raw) : list bool := map (fun x => negb (x =? 0)%Z) (data r).
(** [torch.nonzero] of a flat tensor, by its documentation *)
Definition torch_nonzero (l : list bool) : list nat := filter (fun p => nth p l false) (seq 0 (length l)).
(** [nonzero], array_.py 43-62: a stable sort in descending order. It is not used currently. *)
Definition nonzero (l : list bool) (out_len : nat) : list nat := firstn out_len (argsort (map (fun b : bool => if b then -1 else 0)%Z l)).
(** [masked_select], array_.py 11-40. [flatten(end_dim=mask.ndim - 1)] flattens everything if the mask is a scalar. *)
Definition torch_masked_select (input mask : raw) (mask_len : option nat) : res raw :=
  let m := length (shape mask) in
  let* _ := assert_ (m <=? length (shape input)) in
  let* _ := assert_ (forallb (fun i => nth i (shape input) 0 =? nth i (shape mask) 0) (seq 0 m)) in
  let idx := torch_nonzero (truths mask) in
  let* _ := match mask_len with Some n => assert_ (length idx =? n) | None => Ok tt end in
  let s := match m with
           | 0 => [prod (shape input)]
           | _ => prod (firstn m (shape input)) :: skipn m (shape input)
           end in
  let input_flat := {| shape := s; data := data input |} in
  Ok (tabulate (length idx :: tl s) (fun i => match i with k :: i => at_ input_flat (nth k idx 0 :: i) | [] => 0%Z end)).

(** [masked_select], _backend.py 1721-1766. [known] is the size of [out] if it was already known (1747-1751). *)
Definition masked_select (t mask : tensor) (ds : list dim) (out : dim) (known : option nat) : res tensor :=
  let* _ := assert_ (same_set (dims mask) ds) in
  let rest := filter (fun d => negb (mem d (dims mask))) (dims t) in
  let* x := compatible_raw t (ds ++ rest) in
  let* m := compatible_raw mask ds in
  let* r := torch_masked_select x m known in
  Ok {| dims := out :: rest; traw := r |}.

(** [torch.Tensor.expand] to a shape with as many axes *)
Definition expand (r : raw) (s : list nat) : raw := tabulate s (fun i => at_ r (broadcast_index (shape r) i)).
(** [torch.Tensor.masked_scatter_] on the entries in their order: an error if the source has too few *)
Fixpoint scatter_flat (old : list Z) (mask : list bool) (source : list Z) : res (list Z) :=
  match old, mask with
  | x :: old, true :: mask =>
      match source with
      | y :: source => let* r := scatter_flat old mask source in Ok (y :: r)
      | [] => Err OtherException
      end
  | x :: old, false :: mask => let* r := scatter_flat old mask source in Ok (x :: r)
  | _, _ => Ok []
  end.
(** [Tensor.copy_masked] with false: [valid] tells whether the indices are within the sequences: tensor/_tensor_extra.py 2915-2971 *)
Definition copy_masked (valid : list nat -> bool) (mask : tensor) : tensor :=
  {| dims := dims mask; traw := tabulate (shape (traw mask)) (fun i => if valid i then at_ (traw mask) i else 0%Z) |}.
(** [masked_scatter], _backend.py 1768-1814; see below for the mask. [size d] is [d.get_dim_value()]. *)
Definition scatter_at (size : nat -> nat) (source : tensor) (backup : option tensor) (mask : tensor) (ds : list dim) (in_ : dim) : res tensor :=
  let* _ := assert_ (same_set (dims mask) ds) in
  let* _ := assert_ (mem in_ (dims source)) in
  let rest := filter (fun d => negb (mem d (dims mask)) && negb (deq d in_)) (dims source) in
  let* s := compatible_raw source (in_ :: rest) in
  let out := ds ++ rest in
  let* o := match backup with
            | None => Ok (tabulate (shape_of size out) (fun _ => 0%Z))
            | Some b =>
                let* _ := assert_ (forallb (fun d => mem d out) (dims b)) in
                let* r := compatible_raw b out in
                Ok (expand r (shape_of size out))
            end in
  let* m := compatible_raw mask out in
  let* r := scatter_flat (data o) (truths (expand m (shape o))) (data s) in
  Ok {| dims := out; traw := {| shape := shape o; data := r |} |}.
(** The mask is set to false in the padding before it is used (1797); this does not change its dims. [masked_select] does not do it. *)
Definition masked_scatter (size : nat -> nat) (valid : list nat -> bool) (source : tensor) (backup : option tensor) (mask : tensor) (ds : list dim) (in_ : dim) : res tensor :=
  scatter_at size source backup (copy_masked valid mask) ds in_.
