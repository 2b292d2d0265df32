(** Model of /repo/returnn/datasets/postprocessing.py: [PostprocessingDataset], [LaplaceOrdering], [Sequential].

    A python iterator is a state with a function [next], which gives the new state and an outcome. The state is whatever
    is reachable from the iterator, including the random generator that the functions of the user share. *)
From Coq Require Import String QArith.
From Verif Require Import Base PyDict PySort.
Local Open Scope string_scope.
Local Open Scope nat_scope.
Local Open Scope list_scope.
Local Notation length := List.length.

Section Postproc.
Context {A : Type}. (** the content of one tensor *)

(** A [TensorDict]: the tensors of the data keys, and the entries "complete_frac" ([None]: the key is missing,
    [Some None]: there is no value) and "seq_tag" ([None]: the key is missing). The fractions are exact here (float32 in
    the code). All dicts are separate objects: a mapper that yields the same object twice is not modelled. *)
Record tdict := { t_data : @dict string A; t_frac : option (option Q); t_tag : option string }.

Inductive outcome := Yield (t : tdict) | Stop | Raise (e : err).

Definition iterator (D : Type) := D -> D * outcome.

(** A [map_seq_stream] function: applied to an iterator, it gives an iterator with its own state. [m_preserves] is the
    attribute [preserves_num_seqs] ([None]: there is none). *)
Record mapper := {
  m_state : Type;
  m_start : m_state;
  m_next : forall D, iterator D -> iterator (m_state * D);
  m_preserves : option bool
}.

(** ** LaplaceOrdering *)

Definition with_frac (t : tdict) (f : option Q) : tdict := {| t_data := t_data t; t_frac := Some f; t_tag := t_tag t |}.

(** The generator: not yet started; waiting at the [yield] of line 427 with the rest of the sorted buffer, its full
    size, [next_seq_buffer], [has_ended] and [is_down_phase]; or finished. *)
Inductive laplace :=
| LInit
| LYield (todo : list tdict) (size : nat) (next_buffer : list tdict) (ended down : bool)
| LDone.

(** [list(islice(iterator, n))] (line 412) *)
Fixpoint islice {D} (nx : iterator D) (n : nat) (d : D) : D * res (list tdict) :=
  match n with
  | 0 => (d, Ok [])
  | S n' =>
      match nx d with
      | (d', Stop) => (d', Ok [])
      | (d', Raise e) => (d', Err e)
      | (d', Yield t) => let '(d'', r) := islice nx n' d' in (d'', let* l := r in Ok (t :: l))
      end
  end.

(** lines 417-420. [seq_len] is [_get_seq_len] (lines 442-446), a KeyError if the key is missing. [list.sort] computes the
    keys first and is stable, also with [reverse]. *)
Definition sort_buffer (seq_len : @dict string A -> res nat) (buffer : list tdict) (down : bool) : res (list tdict) :=
  let* fracs := mapM (fun t => match t_frac t with Some f => Ok f | None => Err KeyError end) buffer in
  let* lens := mapM (fun t => seq_len (t_data t)) buffer in
  let key (tl : tdict * nat) := if down then (- Z.of_nat (snd tl))%Z else Z.of_nat (snd tl) in
  let sorted := map fst (stable_sort_by key (combine buffer lens)) in
  Ok (map (fun tf => with_frac (fst tf) (snd tf)) (combine sorted fracs)).

(** lines 435-437, when all of the buffer was given *)
Definition end_check (next_buffer : list tdict) (ended : bool) : laplace * outcome :=
  if ended && match next_buffer with [] => true | _ => false end then (LDone, Stop) else (LDone, Raise AssertionError).

(** the loop from line 414 to the first [yield]. An empty buffer is smaller than [n], as [n] is positive (line 404). *)
Definition start_bin (seq_len : @dict string A -> res nat) (buffer : list tdict) (ended down : bool) : laplace * outcome :=
  match sort_buffer seq_len buffer down with
  | Err e => (LDone, Raise e)
  | Ok [] => end_check [] ended
  | Ok (t :: todo) => (LYield todo (length buffer) [] ended down, Yield t)
  end.

(** after the [yield] with one more item pulled (lines 426-440) *)
Definition go_on (seq_len : @dict string A -> res nat) (n : nat) (todo : list tdict) (size : nat) (next_buffer : list tdict)
    (ended down : bool) : laplace * outcome :=
  match todo with
  | t :: todo' => (LYield todo' size next_buffer ended down, Yield t)
  | [] => if size <? n then end_check next_buffer ended else start_bin seq_len next_buffer ended (negb down)
  end.

(** [LaplaceOrdering.__call__] (lines 407-440) *)
Definition laplace_next (n : nat) (seq_len : @dict string A -> res nat) (D : Type) (nx : iterator D) : iterator (laplace * D) :=
  fun '(s, d) =>
  match s with
  | LInit =>
      match islice nx n d with
      | (d', Err e) => ((LDone, d'), Raise e)
      | (d', Ok buffer) => let '(s', o) := start_bin seq_len buffer false false in ((s', d'), o)
      end
  | LYield todo size next_buffer ended down =>
      if ended then let '(s', o) := go_on seq_len n todo size next_buffer true down in ((s', d), o)
      else
        match nx d with
        | (d', Raise e) => ((LDone, d'), Raise e)
        | (d', Stop) => let '(s', o) := go_on seq_len n todo size next_buffer true down in ((s', d'), o)
        | (d', Yield t) => let '(s', o) := go_on seq_len n todo size (next_buffer ++ [t]) false down in ((s', d'), o)
        end
  | LDone => ((LDone, d), Stop)
  end.

(** [LaplaceOrdering(num_seqs_per_bin=n)] (lines 396-405) *)
Definition laplace_ordering (n : nat) (seq_len : @dict string A -> res nat) : res mapper :=
  let* _ := assert_ (0 <? n) in
  Ok {| m_state := laplace; m_start := LInit; m_next := laplace_next n seq_len; m_preserves := Some true |}.

(** ** Sequential *)

(** [Sequential(funcs...)] (lines 452-477) for stream functions *)
Definition identity_mapper : mapper :=
  {| m_state := unit; m_start := tt; m_preserves := Some true;
     m_next := fun D nx '(u, d) => let '(d', o) := nx d in ((u, d'), o) |}.
Definition then_mapper (f g : mapper) : mapper :=
  {| m_state := m_state g * m_state f; m_start := (m_start g, m_start f); m_preserves := None;
     m_next := fun D nx '((sg, sf), d) =>
       let '((sg', (sf', d')), o) := m_next g (m_state f * D) (m_next f D nx) (sg, (sf, d)) in (((sg', sf'), d'), o) |}.
Definition preserves (f : mapper) : bool := match m_preserves f with Some b => b | None => false end.
Definition sequential (fs : list mapper) : mapper :=
  let f := fold_left then_mapper fs identity_mapper in
  {| m_state := m_state f; m_start := m_start f; m_next := m_next f; m_preserves := Some (forallb preserves fs) |}.

(** ** PostprocessingDataset *)

(** The sequences of the wrapped dataset in this epoch: tag, data, and [get_complete_frac(.., allow_only_lr_suitable=True)].
    [w_num_seqs] is its [num_seqs] ([None]: not known). *)
Record wrapped := { w_seqs : list (string * @dict string A * option Q); w_num_seqs : option nat }.

(** [R] is the state of the random generator. A [map_seq] gets it, the index, and the dict. *)
Context {R : Type}.
Definition map_seq_fun := R -> nat -> tdict -> R * res tdict.

(** the generator [_iterate_dataset] (lines 318-367): index and whether it goes on, and the random generator. [map_seq] is
    [None] for a stream dataset. *)
Definition source := (nat * bool * R)%type.
Definition in_dict (x : string * @dict string A * option Q) : tdict :=
  {| t_data := snd (fst x); t_frac := Some (snd x); t_tag := Some (fst (fst x)) |}.
Definition source_next (w : wrapped) (map_seq : option map_seq_fun) (seq_list : option (list string)) : iterator source :=
  fun '(i, alive, r) =>
  if alive then
    match nth_error (w_seqs w) i with
    | None => ((i, false, r), Stop)
    | Some x =>
        match map_seq with
        | None => ((S i, true, r), Yield (in_dict x))
        | Some f =>
            match f r i (in_dict x) with
            | (r', Err e) => ((i, false, r'), Raise e)
            | (r', Ok t) =>
                (* lines 350-357 *)
                let t := {| t_data := t_data t;
                            t_frac := match t_frac t, snd x with
                                      | None, Some q => Some (Some q)
                                      | c, _ => c
                                      end;
                            t_tag := match t_tag t with None => Some (fst (fst x)) | c => c end |} in
                (* lines 359-364 *)
                match match seq_list with
                      | None => Ok tt
                      | Some tags =>
                          let* tag := pyget tags i in
                          assert_ (match t_tag t with Some tag' => String.eqb tag' tag | None => false end)
                      end with
                | Err e => ((i, false, r'), Raise e)
                | Ok _ => ((S i, true, r'), Yield t)
                end
            end
        end
    end
  else ((i, false, r), Stop).

(** the generator [_validate_tensor_dict_iter] (lines 286-308): the last fraction and whether it goes on. [check] is the
    comparison with the template of the outputs (lines 301-307). [float(None)] is a TypeError. *)
Definition validate_dict (check : tdict -> res unit) (last : Q) (t : tdict) : res Q :=
  let* last' := match t_frac t with
                | None => Ok last
                | Some None => Err TypeError
                | Some (Some q) =>
                    let* _ := assert_ (Qle_bool 0 q && Qle_bool q 1) in
                    let* _ := assert_ (Qle_bool last q) in
                    Ok q
                end in
  let* _ := check t in Ok last'.
Definition validate_next (check : tdict -> res unit) {D} (nx : iterator D) : iterator (Q * bool * D) :=
  fun '(last, alive, d) =>
  if alive then
    match nx d with
    | (d', Yield t) =>
        match validate_dict check last t with
        | Ok last' => ((last', true, d'), Yield t)
        | Err e => ((last, false, d'), Raise e)
        end
    | (d', Stop) => ((last, false, d'), Stop)
    | (d', Raise e) => ((last, false, d'), Raise e)
    end
  else ((last, false, d), Stop).

(** What the constructor is given (lines 94-176). [o_seed] is [RandomState(_get_random_seed_for_epoch(epoch))]. *)
Record options := {
  o_map_seq : option map_seq_fun;
  o_stream : option mapper;
  o_preserves : option bool;
  o_check : tdict -> res unit;
  o_seed : nat -> R;
  o_wrapped : nat -> wrapped
}.
(** lines 132-137 *)
Definition construct (o : options) : res unit :=
  match o_map_seq o, o_stream o, o_preserves o with
  | None, None, _ => Err ValueError
  | Some _, Some _, _ => Err ValueError
  | Some _, _, Some _ => Err ValueError
  | _, _, _ => Ok tt
  end.
(** lines 142-144 *)
Definition preserves_num_seqs (o : options) : bool :=
  match o_preserves o, o_stream o with
  | Some b, _ => b
  | None, Some f => preserves f
  | None, None => false
  end.

(** Without [map_seq_stream] the mapper is the identity. *)
Definition stream_of (o : options) : mapper := match o_stream o with Some f => f | None => identity_mapper end.

(** The state of the dataset in an epoch: [_num_seqs], the counter of [enumerate], [_data_iter_produced_num_seqs], the
    list of the tags to check, the epoch, and the state of [_data_iter]. *)
Record state (o : options) := {
  st_epoch : nat;
  st_num_seqs : option nat;
  st_count : nat;
  st_produced : nat;
  st_tags : option (list string);
  st_iter : Q * bool * (m_state (stream_of o) * source)
}.
Arguments st_epoch {o}. Arguments st_num_seqs {o}. Arguments st_count {o}. Arguments st_produced {o}.
Arguments st_tags {o}. Arguments st_iter {o}.

(** [init_seq_order] (lines 186-220) for an epoch, by [seq_list] or not. [seq_order] is handled by the wrapped dataset
    alone, like the effect of [seq_list] on its order: both are part of [o_wrapped]. *)
Definition init_seq_order (o : options) (epoch : nat) (seq_list : option (list string)) : res (state o) :=
  let* _ := match o_stream o, seq_list with Some _, Some _ => Err ValueError | _, _ => Ok tt end in
  Ok {| st_epoch := epoch;
        st_num_seqs := match o_stream o with
                       | Some _ => if preserves_num_seqs o then w_num_seqs (o_wrapped o epoch) else None
                       | None => w_num_seqs (o_wrapped o epoch)
                       end;
        st_count := 0; st_produced := 0; st_tags := seq_list;
        st_iter := ((0%Q, true), (m_start (stream_of o), (0, true, o_seed o epoch))) |}.

(** [next] of [_build_mapping_iter()] (lines 281-316) *)
Definition iter_next (o : options) (epoch : nat) (seq_list : option (list string)) :=
  validate_next (o_check o)
    (m_next (stream_of o) source (source_next (o_wrapped o epoch) (o_map_seq o) seq_list)).

(** A [DatasetSeq]: tag, features, fraction *)
Record dataset_seq := { d_tag : option string; d_data : @dict string A; d_frac : option Q }.

(** [_collect_single_seq] (lines 251-279). The default tag ["seq-%i"] is [None] here. [gap] is the number of sequences
    that are passed over. *)
Definition collect_step (o : options) (s : state o) : state o * outcome :=
  let '(it, out) := iter_next o (st_epoch s) (st_tags s) (st_iter s) in
  match out with
  | Yield t =>
      ({| st_epoch := st_epoch s; st_num_seqs := st_num_seqs s; st_count := S (st_count s);
          st_produced := S (st_produced s); st_tags := st_tags s; st_iter := it |},
       match st_num_seqs s with
       | Some n => if S (st_produced s) <=? n then Yield t else Raise AssertionError
       | None => Yield t
       end)
  | Stop =>
      ({| st_epoch := st_epoch s; st_num_seqs := st_num_seqs s; st_count := st_count s;
          st_produced := st_produced s; st_tags := st_tags s; st_iter := it |},
       match st_num_seqs s with
       | Some n => if st_produced s =? n then Stop else Raise AssertionError
       | None => Stop
       end)
  | Raise e =>
      ({| st_epoch := st_epoch s; st_num_seqs := st_num_seqs s; st_count := st_count s;
          st_produced := st_produced s; st_tags := st_tags s; st_iter := it |}, Raise e)
  end.
Fixpoint collect_loop (o : options) (s : state o) (seq_idx : nat) (gap : nat) : state o * res (option dataset_seq) :=
  let loaded := st_count s in
  match collect_step o s with
  | (s', Raise e) => (s', Err e)
  | (s', Stop) => (s', Ok None)
  | (s', Yield t) =>
      if loaded <=? seq_idx then
        if loaded =? seq_idx then
          match t_frac t with
          | Some None => (s', Err TypeError)
          | Some (Some q) => (s', Ok (Some {| d_tag := t_tag t; d_data := t_data t; d_frac := Some q |}))
          | None => (s', Ok (Some {| d_tag := t_tag t; d_data := t_data t; d_frac := None |}))
          end
        else match gap with 0 => (s', Err OutOfFuel) | S gap' => collect_loop o s' seq_idx gap' end
      else (s', Err AssertionError)
  end.
Definition collect_single_seq (o : options) (s : state o) (seq_idx : nat) : state o * res (option dataset_seq) :=
  collect_loop o s seq_idx (seq_idx - st_count s).

(** the calls of [_collect_single_seq] one after another *)
Fixpoint collect_all (o : options) (s : state o) (idxs : list nat) : state o * list (res (option dataset_seq)) :=
  match idxs with
  | [] => (s, [])
  | i :: idxs' => let '(s', r) := collect_single_seq o s i in let '(s'', rs) := collect_all o s' idxs' in (s'', r :: rs)
  end.
End Postproc.
Arguments tdict : clear implicits. Arguments outcome : clear implicits. Arguments iterator : clear implicits.
Arguments mapper : clear implicits. Arguments wrapped : clear implicits. Arguments options : clear implicits.
Arguments map_seq_fun : clear implicits. Arguments dataset_seq : clear implicits. Arguments laplace : clear implicits.
Arguments state {A R}.
Arguments st_epoch {A R o}. Arguments st_num_seqs {A R o}. Arguments st_count {A R o}. Arguments st_produced {A R o}.
Arguments st_tags {A R o}. Arguments st_iter {A R o}.
