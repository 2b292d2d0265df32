(** Model of /repo/returnn/torch/frontend/_backend.py [softmax_cross_entropy_with_logits], which is [rf.cross_entropy] with
    [estimated_type="logits"] (/repo/returnn/frontend/loss.py 42-45). The sparse dim of the targets is given apart. *)
From Verif Require Import Base TensorModel MatmulModel ReshapeModel.
Local Open Scope nat_scope.

(** [torch.nn.functional.cross_entropy] with [reduction="none"]: the classes are the second axis of the input, or the only one. The
    target is a class ([dense] is false), or has a probability for each class. [ce] is the function for one position: it gets the
    logits, and the class or the probabilities. *)
Definition over_classes (r : raw) (n : nat) (i : list nat) : list Z :=
  map (fun c => at_ r (match i with [] => [c] | k :: i => k :: c :: i end)) (seq 0 n).
Definition cross_entropy_raw (ce : list Z -> list Z -> Z) (dense : bool) (inp tgt : raw) : res raw :=
  match shape inp with
  | [] => Err OtherException
  | b :: s =>
      let (n, out) := match s with [] => (b, []) | c :: s => (c, b :: s) end in
      if same_nats (shape tgt) (if dense then shape inp else out) then
        Ok (tabulate out (fun i => ce (over_classes inp n i) (if dense then over_classes tgt n i else [at_ tgt i])))
      else Err OtherException
  end.

(** [copy_move_axis], /repo/returnn/tensor/_tensor_extra.py 673-693 *)
Definition move_axis (t : tensor) (old new : nat) : res tensor :=
  let* _ := assert_ ((old <? length (dims t)) && (new <? length (dims t))) in
  if old =? new then Ok t
  else
    let others := filter (fun i => negb (i =? old)) (seq 0 (length (dims t))) in
    transpose_axes t (firstn new others ++ [old] ++ skipn new others).

(** /repo/returnn/torch/frontend/_backend.py 602-657 *)
Definition cross_entropy (ce : list Z -> list Z -> Z) (logits targets : tensor) (sparse : option dim) (axis : dim) : res tensor :=
  (* 612 *)
  let* _ := assert_ (mem axis (dims logits)) in
  let sparse_case := match sparse with Some d => deq axis d | None => false end in
  let* (order, targets) :=
    if sparse_case then
      (* 614-624 *)
      let* _ := assert_ (same_set (filter (fun d => negb (deq d axis)) (dims logits)) (dims targets)) in
      Ok (match dims targets with [] => [axis] | d :: ds => d :: axis :: ds end, targets)
    else
      (* 631-642 *)
      let* _ := assert_ (match sparse with Some _ => false | None => true end) in
      let* _ := assert_ (same_set (dims logits) (dims targets)) in
      let* _ := assert_ (mem axis (dims targets)) in
      let* targets := if 1 <? length (dims targets) then move_axis targets (dim_index (dims targets) axis) 1 else Ok targets in
      Ok (dims targets, targets) in
  (* 644-646 *)
  let* p := mapM (index_of order) (dims logits) in
  let* logits := transpose_axes logits p in
  (* 648-657 *)
  let* r := cross_entropy_raw ce (negb sparse_case) (traw logits) (traw targets) in
  Ok {| dims := remove_dim axis (dims logits); traw := r |}.
