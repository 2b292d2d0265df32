(** Model of the outputs of a forward step: /repo/returnn/frontend/run_ctx.py, [RunCtx.mark_as_output], [check_outputs_complete] and
    [_default_dim_order]. A dim is a number, with its properties given by [info]; two dims are equal if they are the same. Simplified:
    outputs are [Tensor]s, not raw tensors, and the dims of a tensor are different. *)
From Coq Require Import String.
From Verif Require Import Base PyDict.
Local Open Scope nat_scope. Local Open Scope list_scope.

(** [Dim.dimension], [is_batch_dim()], and whether [dyn_size_ext] is there and has dims *)
Record dim_info := { d_size : option nat; d_batch : bool; d_ext : option bool }.
(** tensor/_dim_extra.py 956-966 *)
Definition is_dynamic (d : dim_info) : bool := match d_size d with None => true | Some _ => false end.
(** tensor/_dim_extra.py 947-954 *)
Definition is_dynamic_seq_length (d : dim_info) : bool :=
  is_dynamic d && match d_ext d with Some has_dims => has_dims | None => negb (d_batch d) end.
(** tensor/_dim_extra.py 905-922, without the dims for other batches *)
Definition is_dim_known (d : dim_info) : bool :=
  d_batch d || match d_ext d with Some _ => true | None => negb (is_dynamic d) end.

Section Outputs.
  Context {V : Type} (info : nat -> dim_info).
  (** A tensor: its dims, its batch and time axis if there is one, [dtype], [sparse_dim], and the entry for each list of indices *)
  Record tensor := { t_dims : list nat; t_batch : option nat; t_time : option nat; t_dtype : string; t_sparse : option nat; t_data : list nat -> V }.
  (** What is expected of an output (from [model_outputs] of the config): a template *)
  Record template := { x_dims : list nat; x_dtype : string; x_sparse : option nat }.

  (** python's [list.remove] *)
  Fixpoint remove1 (d : nat) (l : list nat) : res (list nat) :=
    match l with
    | [] => Err ValueError
    | d' :: l => if d' =? d then Ok l else let* r := remove1 d l in Ok (d' :: r)
    end.
  (** run_ctx.py 475-477 and 478-480 *)
  Definition take_axis (axis : option nat) (rem dims : list nat) : res (list nat * list nat) :=
    match axis with
    | None => Ok (rem, dims)
    | Some d => let* rem := remove1 d rem in Ok (rem, dims ++ [d])
    end.
  (** [_default_dim_order], lines 466-495 *)
  Definition default_dim_order (t : tensor) : res (list nat) :=
    let* (rem, dims) := take_axis (t_batch t) (t_dims t) [] in
    let* (rem, dims) := take_axis (t_time t) rem dims in
    let* (rem, dims) :=
      match filter (fun d => is_dynamic_seq_length (info d)) rem with
      | [] => Ok (rem, dims)
      | [d] => take_axis (Some d) rem dims
      | _ => Err OtherException
      end in
    match rem with
    | [] => Ok dims
    | [d] => Ok (dims ++ [d])
    | _ => Err OtherException
    end.
  (** the index of [d] in a list of indices for [dims] *)
  Fixpoint index_of (dims idx : list nat) (d : nat) : nat :=
    match dims, idx with
    | d' :: dims, i :: idx => if d' =? d then i else index_of dims idx d
    | _, _ => 0
    end.
  (** [Backend.make_output_tensor], frontend/_backend.py 261-271: a transpose by [copy_compatible_to_dims] *)
  Definition make_output_tensor (t : tensor) (dims : list nat) : res tensor :=
    let* _ := assert_ (List.length dims =? List.length (t_dims t)) in
    Ok {| t_dims := dims; t_batch := t_batch t; t_time := t_time t; t_dtype := t_dtype t; t_sparse := t_sparse t;
          t_data := fun idx => t_data t (map (index_of dims idx) (t_dims t)) |}.
  Definition subset (a b : list nat) : bool := forallb (fun x => existsb (Nat.eqb x) b) a.
  Definition opt_eqb (a b : option nat) : bool :=
    match a, b with Some a, Some b => a =? b | None, None => true | _, _ => false end.
  Fixpoint dims_eqb (a b : list nat) : bool :=
    match a, b with [], [] => true | x :: a, y :: b => (x =? y) && dims_eqb a b | _, _ => false end.

  (** A context of stage forward_step: the outputs so far, and what is expected *)
  Record ctx := { c_outputs : @dict string tensor; c_expected : option (@dict string template) }.
  (** run_ctx.py lines 322-341: the check of one dim *)
  Definition check_dim (expected actual : nat) : bool :=
    if negb (is_dim_known (info expected)) then is_dynamic (info actual)
    else if is_dynamic (info expected) then is_dynamic (info actual)
    else match d_size (info expected), d_size (info actual) with Some a, Some b => a =? b | _, _ => false end.
  (** lines 307-349, the checks with the expected output *)
  Definition check_expected (x : template) (t : tensor) : res unit :=
    let* _ := assert_ (List.length (x_dims x) =? List.length (t_dims t)) in
    let* _ := assert_ (forallb (fun p => check_dim (fst p) (snd p)) (combine (x_dims x) (t_dims t))) in
    let* _ := assert_ (x_dtype x =? t_dtype t)%string in
    assert_ (opt_eqb (x_sparse x) (t_sparse t)).
  (** lines 264-305, up to the place where the output is stored: the expected output, and the tensor in its order of dims. A [TensorDict] is always true. *)
  Definition prepare_output (c : ctx) (t : tensor) (name : string) (dims : option (list nat)) : res (option template * tensor) :=
    let* expected :=
      match c_expected c with
      | None => Ok None
      | Some e => match dget e name with Some x => Ok (Some x) | None => Err AssertionError end
      end in
    let dims := match dims, expected with None, Some x => Some (x_dims x) | _, _ => dims end in
    let* _ := match dims, expected with Some dims, Some x => assert_ (dims_eqb (x_dims x) dims) | _, _ => Ok tt end in
    let* dims := match dims with Some dims => Ok dims | None => default_dim_order t end in
    let* _ := assert_ (subset dims (t_dims t) && subset (t_dims t) dims) in
    let* out := make_output_tensor t dims in
    let* _ := assert_ (negb (dhas (c_outputs c) name)) in
    Ok (expected, out).
  (** [mark_as_output], lines 249-349: the context afterwards, also after an error *)
  Definition mark_as_output (c : ctx) (t : tensor) (name : string) (dims : option (list nat)) : ctx * res unit :=
    match prepare_output c t name dims with
    | Err e => (c, Err e)
    | Ok (expected, out) =>
        ({| c_outputs := dset (c_outputs c) name out; c_expected := c_expected c |},
         match expected with None => Ok tt | Some x => check_expected x out end)
    end.
  (** [check_outputs_complete], lines 363-373 *)
  Definition check_outputs_complete (c : ctx) : res unit :=
    match c_expected c with
    | None => Ok tt
    | Some e => assert_ (forallb (dhas (c_outputs c)) (dkeys e) && forallb (dhas e) (dkeys (c_outputs c)))
    end.
  (** A forward step marks some outputs, and an error ends it (torch/engine.py 1300-1328) *)
  Fixpoint mark_all (c : ctx) (marks : list (string * tensor * option (list nat))) : res ctx :=
    match marks with
    | [] => Ok c
    | (name, t, dims) :: marks =>
        match mark_as_output c t name dims with
        | (_, Err e) => Err e
        | (c, Ok _) => mark_all c marks
        end
    end.
  Definition forward_step (expected : option (@dict string template)) (marks : list (string * tensor * option (list nat))) : res (@dict string tensor) :=
    let* c := mark_all {| c_outputs := []; c_expected := expected |} marks in
    let* _ := check_outputs_complete c in
    Ok (c_outputs c).
End Outputs.
