(** What the HDF properties talk about. *)
From Coq Require Import String Ascii.
From Verif Require Import Base PyDict HdfModel.
Local Open Scope string_scope.
Local Open Scope nat_scope.
Local Open Scope list_scope.
Local Notation length := List.length.

Section Spec.
Context {A : Type} (of_size : nat -> A).

(** A sequence: its tag, its frames, and its frames for other keys. A key without frames is an empty sequence. *)
Record hseq := { q_tag : string; q_data : list A; q_extra : @dict string (list A) }.
Definition target (s : hseq) (k : string) : list A := match dget (q_extra s) k with Some l => l | None => [] end.

(** The frames of a padded array below the given lengths, in row-major order. *)
Fixpoint frames_under (lens : list nat) (x : @nd A) : list A :=
  match lens, x with
  | [], Frame a => [a]
  | l :: lens', Axis xs => flat_map (frames_under lens') (firstn l xs)
  | _, _ => []
  end.

(** An array has the same extent everywhere along an axis. *)
Fixpoint has_shape (dims : list nat) (x : @nd A) : Prop :=
  match dims, x with
  | [], Frame _ => True
  | d :: dims', Axis xs => length xs = d /\ Forall (has_shape dims') xs
  | _, _ => False
  end.

(** number of axes with sequence lengths, and the lengths of sequence [i] *)
Definition naxes (b : @batch A) : nat := length (b_lens b).
Definition axis_lens (b : @batch A) (i : nat) : list nat :=
  map (fun axis => match dget (b_lens b) axis with Some l => nth i l 0 | None => 0 end) (seq 0 (naxes b)).

(** The arguments are python values: [inputs] is an array of its shape, and dicts have no key twice. *)
Definition batch_python (b : @batch A) : Prop :=
  match b_shape b with
  | [] => True
  | n :: dims => length (b_inputs b) = n /\ Forall (has_shape (firstn (naxes b) dims)) (b_inputs b)
  end
  /\ dict_ok (b_lens b) /\ NoDup (map fst (b_extra b)).

(** With several dynamic axes the writer itself adds the lengths under the key "sizes". *)
Definition own_keys (b : @batch A) : list string := if 1 <? naxes b then ["sizes"] else [].
Definition batch_keys (b : @batch A) : list string := own_keys b ++ map fst (b_extra b).
Definition keys_distinct (b : @batch A) : Prop := NoDup (batch_keys b).

(** The sequences of a batch. *)
Definition seq_of (b : @batch A) (i : nat) : hseq :=
  {| q_tag := nth i (b_tags b) "";
     q_data := frames_under (axis_lens b i) (nth i (b_inputs b) (Axis []));
     q_extra := map (fun k => (k, map of_size (axis_lens b i))) (own_keys b)
                ++ map (fun e => (fst e, nth i (snd (snd e)) [])) (b_extra b) |}.
Definition seqs_of (b : @batch A) : list hseq := map (seq_of b) (seq 0 (length (b_tags b))).
Definition all_seqs (bs : list (@batch A)) : list hseq := flat_map seqs_of bs.

(** [insert_batch] is called as documented. [ndim] and [dim] are those of the writer. *)
Definition batch_valid (dim : option nat) (ndim : nat) (b : @batch A) : Prop :=
  let n := length (b_tags b) in
  exists dims, b_shape b = n :: dims /\ length dims = ndim /\ naxes b <= ndim
  /\ (forall axis, In axis (dkeys (b_lens b)) <-> axis < naxes b)
  /\ Forall (fun kv => length (snd kv) = n /\ Forall (fun l => l <= nth (fst kv) dims 0) (snd kv)
                       /\ In (nth (fst kv) dims 0) (snd kv)) (b_lens b)
  /\ (let static := skipn (naxes b) dims in
      match dim with
      | Some (S d) => static = [] \/ static = [S d] (* sparse, or one feature axis *)
      | _ => static = []
      end)
  /\ Forall (fun e => length (snd (snd e)) = n) (b_extra b).

(** ** What can be read *)

(** Position [i] of the current order is the sequence [s]. *)
Definition shows (r : @reader A) (i : nat) (inp : bool) (keys : list string) (s : hseq) : Prop :=
  get_tag r i = Ok (q_tag s)
  /\ (inp = true -> get_data r i "data" = Ok (q_data s))
  /\ (forall k, In k keys -> get_data r i k = Ok (target s k))
  /\ exists d, get_seq_length r i = Ok d
     /\ (inp = true -> dget d "data" = Some (length (q_data s)))
     /\ (forall k, In k keys -> dget d k = Some (length (target s k))).

(** The data set is the list of these sequences with the target keys [keys], and with the key "data" if [inp]. *)
Definition is_dataset (r : @reader A) (inp : bool) (keys : list string) (seqs : list hseq) : Prop :=
  r_num_seqs r = length seqs
  /\ get_all_tags r = map q_tag seqs
  /\ (forall k, In k (data_keys r) <-> (inp = true /\ k = "data") \/ In k keys)
  (* every order of sequences, e.g. for an epoch *)
  /\ (forall o l, o = ByEpoch l \/ o = BySeqOrder l -> exists r', init_seq_order r o = Ok r' /\ num_seqs r' = length l
       /\ forall i j s, nth_error l i = Some j -> nth_error seqs j = Some s -> shows r' i inp keys s)
  (* every list of tags; if a tag occurs several times, then the last sequence counts *)
  /\ (forall tags, incl tags (map q_tag seqs) ->
       exists r', init_seq_order r (BySeqList tags) = Ok r' /\ num_seqs r' = length tags
       /\ forall i t, nth_error tags i = Some t -> exists s before after, seqs = before ++ s :: after
            /\ q_tag s = t /\ ~ In t (map q_tag after) /\ shows r' i inp keys s)
  /\ (forall tags t, In t tags -> ~ In t (map q_tag seqs) -> exists e, init_seq_order r (BySeqList tags) = Err e).

(** A tag that survives: no NUL character in it. *)
Fixpoint no_nul (s : string) : Prop :=
  match s with EmptyString => True | String c s' => c <> "000"%char /\ no_nul s' end.
End Spec.

(** The writer of a new file and its content at the end. *)
Definition write_file {A} (zero : A) (of_size : nat -> A) (dim ndim : option nat) (labels : list string)
    (types : list (string * (option nat * nat))) (tlabels : @dict string (list string)) (bs : list (@batch A))
    : res (@hfile A) :=
  let* w := new_writer None dim ndim labels types tlabels in
  let* w := insert_batches zero of_size w bs in
  Ok (w_file w).
(** ... and of an existing file *)
Definition extend_file {A} (zero : A) (of_size : nat -> A) (f : @hfile A) (dim ndim : option nat) (labels : list string)
    (types : list (string * (option nat * nat))) (tlabels : @dict string (list string)) (bs : list (@batch A))
    : res (@hfile A) :=
  let* w := new_writer (Some f) dim ndim labels types tlabels in
  let* w := insert_batches zero of_size w bs in
  Ok (w_file w).

(** the target keys of a file: declared in the constructor, or given with a batch *)
Definition written_keys {A} (types : list (string * (option nat * nat))) (bs : list (@batch A)) (k : string) : Prop :=
  In k (map fst types) \/ exists b, In b bs /\ b_tags b <> [] /\ In k (batch_keys b).

(** A file that came from [SimpleHDFWriter], with its target keys and sequences: written at once, or extended later. For
    an extension all the target keys have to be declared, or there is at most one. *)
Inductive produced {A} (zero : A) (of_size : nat -> A) : @hfile A -> (string -> Prop) -> list (@hseq A) -> Prop :=
| produced_new dim ndim labels types tlabels bs f :
    write_file zero of_size dim ndim labels types tlabels bs = Ok f ->
    NoDup (map fst types) -> Forall batch_python bs -> Forall keys_distinct bs ->
    produced zero of_size f (written_keys types bs) (all_seqs of_size bs)
| produced_extended f keys seqs dim ndim labels types tlabels bs f' :
    produced zero of_size f keys seqs ->
    extend_file zero of_size f dim ndim labels types tlabels bs = Ok f' ->
    NoDup (map fst types) -> Forall batch_python bs -> Forall keys_distinct bs ->
    (forall k, In k (map fst types) <-> keys k) \/ (types = [] /\ forall k k', keys k -> keys k' -> k = k') ->
    produced zero of_size f' keys (seqs ++ all_seqs of_size bs).

(** ... with at least one sequence, and all the tags survive *)
Definition usable {A} (zero : A) (of_size : nat -> A) (f : @hfile A) (keys : string -> Prop) (seqs : list (@hseq A)) : Prop :=
  produced zero of_size f keys seqs /\ seqs <> [] /\ Forall (fun s => no_nul (q_tag s)) seqs.

(** the keys that come with the first sequence *)
Fixpoint first_keys {A} (bs : list (@batch A)) : list string :=
  match bs with [] => [] | b :: bs' => match b_tags b with [] => first_keys bs' | _ => batch_keys b end end.
(** With a dim, all batches have it as feature axis, or in all batches it is the number of classes (sparse). *)
Definition same_sparseness {A} (dim : option nat) (ndim : nat) (bs : list (@batch A)) : Prop :=
  match dim with
  | Some (S _) => Forall (fun b => naxes b = ndim) bs \/ Forall (fun b => naxes b <> ndim) bs
  | _ => True
  end.

(** What a file says about the number of classes or features of a key, and about the number of its axes. *)
Definition file_declares {A} (f : @hfile A) (k : string) (v : nat * nat) : Prop :=
  (k = "data" /\ exists frames, f_inputs f = Some (frames, v)) \/ dget (f_sizes f) k = Some v.

(** ** Copy of a dataset *)
Section Copy.
Context {A : Type} (s : @source A).

(** The keys "orth" and "raw" are left out. *)
Definition kept (k : string) : Prop := In k (s_keys s) /\ k <> "orth" /\ k <> "raw".
(** The input is the key that is not a target; if there are several, then it is "data". *)
Definition is_input_key (i : string) : Prop :=
  kept i /\ ~ In i (s_targets s) /\ (i = "data" \/ forall k, kept k -> ~ In k (s_targets s) -> k = i).
(** "data" is the name for the input, as a target it is called "classes" *)
Definition file_name (k : string) : string := if String.eqb k "data" then "classes" else k.
(** all keys but the input *)
Definition copy_target (input : option string) (k : string) : Prop := kept k /\ Some k <> input.

Definition copied (x : string * @dict string (list A)) (input : option string) (y : @hseq A) : Prop :=
  q_tag y = fst x
  /\ (forall i, input = Some i -> dget (snd x) i = Some (q_data y))
  /\ (forall k, copy_target input k -> dget (snd x) k = Some (target y (file_name k))).

(** the sequences [start] to [end] (inclusive) *)
Definition selected (start : nat) (end_seq : option nat) : list (string * @dict string (list A)) :=
  match end_seq with None => skipn start (s_seqs s) | Some e => skipn start (firstn (S e) (s_seqs s)) end.
End Copy.
