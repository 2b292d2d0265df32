(** HDF files (returnn/datasets/hdf.py): [SimpleHDFWriter], [HDFDatasetWriter] and the reader [HDFDataset] without
    cache.

    The content of an HDF file is the record [hfile]: h5py itself and the bytes on disk are not modelled. An h5py
    dataset is the list of its entries along the first axis ("frames"); all frames of one dataset have the same shape,
    writing frames of another shape is not modelled. Names of datasets are plain, i.e. without slash. *)
From Coq Require Import String Ascii.
From Verif Require Import Base PyDict OptimModel.
Local Open Scope string_scope.
Local Open Scope nat_scope.
Local Open Scope list_scope.
Local Notation length := List.length.

Definition mem_str (x : string) (l : list string) : bool := existsb (String.eqb x) l.

(** [l.index(x)] *)
Fixpoint index_str (x : string) (l : list string) : option nat :=
  match l with
  | [] => None
  | y :: l' => if String.eqb x y then Some 0 else match index_str x l' with Some i => Some (S i) | None => None end
  end.

Fixpoint set_nth {T} (l : list T) (i : nat) (x : T) : res (list T) :=
  match l, i with
  | [], _ => Err IndexError
  | _ :: l', 0 => Ok (x :: l')
  | y :: l', S i' => let* l2 := set_nth l' i' x in Ok (y :: l2)
  end.

(** [dataset.resize(n, axis=0)]: cut, or fill up with zeros *)
Definition resize {T} (zero : T) (l : list T) (n : nat) : list T := firstn n l ++ repeat zero (n - length l).

(** [dataset[off:] = raw]; broadcasting is not modelled, the lengths have to agree *)
Definition assign_from {T} (l : list T) (off : nat) (raw : list T) : res (list T) :=
  if length l - off =? length raw then Ok (firstn off l ++ raw) else Err TypeError.

(** [_decode] (lines 72-77): the part before the first NUL character *)
Fixpoint cut_nul (s : string) : string :=
  match s with
  | EmptyString => EmptyString
  | String c s' => if (c =? "000")%char then EmptyString else String c (cut_nul s')
  end.

Fixpoint max_list (l : list nat) : res nat :=
  match l with
  | [] => Err ValueError
  | [x] => Ok x
  | x :: l' => let* m := max_list l' in Ok (Nat.max x m)
  end.
Definition prod (l : list nat) : nat := fold_right Nat.mul 1 l.

Section Hdf.
(** A frame: the content of a dataset at one index of its first axis. [zero] is what h5py fills up with, [of_size] is the
    frame with a number. *)
Context {A : Type} (zero : A) (of_size : nat -> A).

(** What is in an HDF file: "inputs" with the dim and the number of axes as the reader reports them (lines 189-193),
    "targets/data" ([None] if there is no group "targets"), the attributes of "targets/size", "labels",
    "targets/labels", "seqLengths" with its number of columns, "seqTags", and the attributes "numTimesteps" and
    "numSeqs". *)
Record hfile := {
  f_inputs : option (list A * (nat * nat));
  f_data : option (@dict string (list A));
  f_sizes : @dict string (nat * nat);
  f_labels : option (list string);
  f_tlabels : @dict string (list string);
  f_lens : list (list nat);
  f_cols : nat;
  f_tags : list string;
  f_steps : nat;
  f_seqs : nat
}.

(** ** SimpleHDFWriter *)

(** [w_steps] is [_extra_num_time_steps], [w_prepared] the set [_prepared_extra]. [_datasets] is the content of the file
    itself. *)
Record writer := {
  w_dim : option nat;
  w_ndim : nat;
  w_extend : bool;
  w_file : hfile;
  w_steps : @dict string nat;
  w_prepared : list string
}.

Definition with_file (w : writer) (f : hfile) : writer :=
  {| w_dim := w_dim w; w_ndim := w_ndim w; w_extend := w_extend w; w_file := f; w_steps := w_steps w;
     w_prepared := w_prepared w |}.
Definition with_lens (f : hfile) (lens : list (list nat)) (cols : nat) : hfile :=
  {| f_inputs := f_inputs f; f_data := f_data f; f_sizes := f_sizes f; f_labels := f_labels f;
     f_tlabels := f_tlabels f; f_lens := lens; f_cols := cols; f_tags := f_tags f; f_steps := f_steps f;
     f_seqs := f_seqs f |}.

(** python [dim or 1] *)
Definition or_one (d : option nat) : nat := match d with Some (S n) => S n | _ => 1 end.

(** [_seq_lengths.resize(n, axis=1)] *)
Definition resize_cols (f : hfile) (n : nat) : hfile := with_lens f (map (fun r => resize 0 r n) (f_lens f)) n.

(** [_seq_lengths[i, j] = v] *)
Definition set_len (f : hfile) (i j v : nat) : res hfile :=
  let* row := pyget (f_lens f) i in
  let* row' := set_nth row j v in
  let* lens := set_nth (f_lens f) i row' in
  Ok (with_lens f lens (f_cols f)).

(** the loop of [_prepare_extra] (lines 1185-1218) for one entry of [extra_type]. The dtype is not modelled.
    [hdf5_strings] (util/basic.py lines 759-777) replaces existing labels. *)
Definition prepare_one (w : writer) (key : string) (dim : option nat) (ndim : nat)
    (extra_labels : @dict string (list string)) : res writer :=
  let* labels := match dget extra_labels key with
                 | Some ls => let* _ := assert_ (match dim with Some d => length ls =? d | None => false end) in Ok ls
                 | None => Ok ["dummy-label"]
                 end in
  let ndim := if ndim =? 0 then 1 else ndim in
  let f := w_file w in
  let tlabels := dset (f_tlabels f) key labels in
  if w_extend w then
    match f_data f with
    | None => Err KeyError
    | Some d =>
        match dget d key with
        | None => Err KeyError
        | Some frames =>
            Ok {| w_dim := w_dim w; w_ndim := w_ndim w; w_extend := true;
                  w_file := {| f_inputs := f_inputs f; f_data := f_data f; f_sizes := f_sizes f;
                               f_labels := f_labels f; f_tlabels := tlabels; f_lens := f_lens f; f_cols := f_cols f;
                               f_tags := f_tags f; f_steps := f_steps f; f_seqs := f_seqs f |};
                  w_steps := dset (w_steps w) key (length frames);
                  w_prepared := w_prepared w ++ [key] |}
        end
    end
  else
    let d := match f_data f with Some d => d | None => [] end in
    Ok {| w_dim := w_dim w; w_ndim := w_ndim w; w_extend := false;
          w_file := {| f_inputs := f_inputs f; f_data := Some (dset d key []);
                       f_sizes := dset (f_sizes f) key (or_one dim, ndim);
                       f_labels := f_labels f; f_tlabels := tlabels; f_lens := f_lens f; f_cols := f_cols f;
                       f_tags := f_tags f; f_steps := f_steps f; f_seqs := f_seqs f |};
          w_steps := dset (w_steps w) key 0;
          w_prepared := w_prepared w ++ [key] |}.

(** [_prepare_extra] (lines 1175-1222): the flag tells whether something was added. A key that is already prepared ends
    the function at once. *)
Fixpoint prepare_loop (w : writer) (types : list (string * (option nat * nat))) (extra_labels : @dict string (list string))
    (added : nat) : res (writer * option nat) :=
  match types with
  | [] => Ok (w, Some added)
  | (key, (dim, ndim)) :: types' =>
      let* _ := assert_ (negb (String.eqb key "inputs")) in
      if mem_str key (w_prepared w) then Ok (w, None)
      else
        let* w' := prepare_one w key dim ndim extra_labels in
        prepare_loop w' types' extra_labels (S added)
  end.
Definition prepare_extra (w : writer) (types : list (string * (option nat * nat)))
    (extra_labels : @dict string (list string)) : res (writer * bool) :=
  let* (w', added) := prepare_loop w types extra_labels 0 in
  match added with
  | None => Ok (w', false)
  | Some n =>
      if (0 <? n) && negb (w_extend w')
      then Ok (with_file w' (resize_cols (w_file w') (1 + length (w_prepared w'))), true)
      else Ok (w', 0 <? n)
  end.

(** the constructor (lines 1078-1168). [extend_existing_file] comes with the content of the existing file. [labels] and
    [extra_type] may be empty ([None] and an empty list or dict are handled in the same way). The temporary file and
    [swmr] are not modelled here; for the order of the file operations see [close_ops]. *)
Definition new_writer (existing : option hfile) (dim : option nat) (ndim : option nat) (labels : list string)
    (extra_type : list (string * (option nat * nat))) (extra_labels : @dict string (list string)) : res writer :=
  let ndim := match ndim with Some n => n | None => match dim with None => 1 | Some _ => 2 end end in
  let* _ := match labels with
            | [] => Ok tt
            | _ => assert_ (match dim with Some d => length labels =? d | None => false end)
            end in
  let file := match existing with
              | Some f => f
              | None => {| f_inputs := None; f_data := None; f_sizes := []; f_labels := Some labels; f_tlabels := [];
                           f_lens := []; f_cols := 2; f_tags := []; f_steps := 0; f_seqs := 0 |}
              end in
  let w := {| w_dim := dim; w_ndim := ndim; w_extend := match existing with Some _ => true | None => false end;
              w_file := file; w_steps := []; w_prepared := [] |} in
  match extra_type with
  | [] => Ok w
  | _ => let* (w', _) := prepare_extra w extra_type extra_labels in Ok w'
  end.

(** [_insert_h5_inputs] (lines 1224-1246). [kind] is what the reader will report for frames of this shape. Frames of
    another kind than before are refused (h5py raises an exception unless it can broadcast). *)
Definition insert_inputs (w : writer) (raw : list A) (kind : nat * nat) : res writer :=
  let f := w_file w in
  let* (frames, k) := match f_inputs f with
                 | Some (l, k) =>
                     if (fst k =? fst kind) && (snd k =? snd kind) then Ok (resize zero l (length l + length raw), k)
                     else Err TypeError
                 | None => if w_extend w then Err KeyError else Ok (repeat zero (length raw), kind)
                 end in
  let* frames' := assign_from frames (f_steps f) raw in
  Ok (with_file w {| f_inputs := Some (frames', k); f_data := f_data f; f_sizes := f_sizes f; f_labels := f_labels f;
                     f_tlabels := f_tlabels f; f_lens := f_lens f; f_cols := f_cols f; f_tags := f_tags f;
                     f_steps := f_steps f + length raw; f_seqs := S (f_seqs f) |}).

(** the loop of lines 1284-1285: set the lengths of all keys again *)
Fixpoint reinit_lens (f : hfile) (steps : @dict string nat) (i : nat) (j : nat) (keys : list string) : res hfile :=
  match keys with
  | [] => Ok f
  | k :: keys' =>
      match dget steps k with
      | None => Err KeyError
      | Some n => let* f' := set_len f i (S j) n in reinit_lens f' steps i (S j) keys'
      end
  end.

(** [_insert_h5_other] (lines 1248-1296) for the frames [raw] of the key, with the dim and the number of axes of the
    array. A scalar gets a first axis (one frame). Dtypes and strings are not modelled. *)
Definition insert_other (w : writer) (key : string) (raw : list A) (dim ndim : nat) : res writer :=
  let* _ := assert_ ((0 <? f_seqs (w_file w)) && (0 <? length (f_lens (w_file w)))) in
  let seq_idx := f_seqs (w_file w) - 1 in
  let* (w, added) := prepare_extra w [(key, (Some dim, ndim))] [] in
  let* w := if added then
              let* _ := assert_ ((seq_idx =? 0) || w_extend w) in
              let* f := reinit_lens (w_file w) (w_steps w) seq_idx 0 (sort_names (w_prepared w)) in
              Ok (with_file w f)
            else Ok w in
  match dget (w_steps w) key, f_data (w_file w), index_str key (sort_names (w_prepared w)) with
  | Some old, Some d, Some idx =>
      match dget d key with
      | None => Err KeyError
      | Some frames =>
          let steps := old + length raw in
          let frames := resize zero frames steps in
          let* f := set_len (w_file w) seq_idx (S idx) (length raw) in
          let* frames := assign_from frames (steps - length raw) raw in
          Ok {| w_dim := w_dim w; w_ndim := w_ndim w; w_extend := w_extend w;
                w_file := {| f_inputs := f_inputs f; f_data := Some (dset d key frames); f_sizes := f_sizes f;
                             f_labels := f_labels f; f_tlabels := f_tlabels f; f_lens := f_lens f; f_cols := f_cols f;
                             f_tags := f_tags f; f_steps := f_steps f; f_seqs := f_seqs f |};
                w_steps := dset (w_steps w) key steps; w_prepared := w_prepared w |}
      end
  | _, _, _ => Err KeyError
  end.

(** one sequence of the array [inputs], down to the frames below its dynamic axes *)
Inductive nd := Frame (a : A) | Axis (l : list nd).

(** [data[:l0, :l1, ...]] *)
Fixpoint nd_slice (lens : list nat) (x : nd) : nd :=
  match lens, x with
  | l :: lens', Axis xs => Axis (map (nd_slice lens') (firstn l xs))
  | _, x => x
  end.
(** the frames in row-major order, as [numpy.reshape] takes them *)
Fixpoint nd_frames (x : nd) : list A :=
  match x with
  | Frame a => [a]
  | Axis xs => (fix go l := match l with [] => [] | y :: l' => nd_frames y ++ go l' end) xs
  end.

(** The arguments of [insert_batch]. [b_shape] is [inputs.shape], [b_inputs] the content per sequence. [b_lens] is the
    dict [seq_len] (a list is the dict with key 0); lengths and axes are not negative. An entry of [b_extra] has the dim
    and the number of axes of one of its sequences, and the frames per sequence. *)
Record batch := {
  b_shape : list nat;
  b_inputs : list nd;
  b_lens : @dict nat (list nat);
  b_tags : list string;
  b_extra : list (string * (nat * nat * list (list A)))
}.

Definition all_res {T} (f : T -> res bool) (l : list T) : res bool :=
  let* bs := mapM f l in Ok (forallb (fun b => b) bs).

Fixpoint insert_extras (w : writer) (i : nat) (extra : list (string * (nat * nat * list (list A)))) : res writer :=
  match extra with
  | [] => Ok w
  | (key, (dim, ndim, values)) :: extra' =>
      let* v := pyget values i in
      let* w' := insert_other w key v dim ndim in
      insert_extras w' i extra'
  end.

(** one iteration of the loop of [insert_batch] (lines 1343-1371). [naxes] is [ndim_with_seq_len], [static] the product of
    the other axes of [inputs]. *)
Definition insert_seq (w : writer) (b : batch) (offset naxes i : nat) : res writer :=
  let sparse := naxes =? w_ndim w in
  let* tag := pyget (b_tags b) i in
  let* tags := set_nth (f_tags (w_file w)) (offset + i) tag in
  let f := w_file w in
  let w := with_file w {| f_inputs := f_inputs f; f_data := f_data f; f_sizes := f_sizes f; f_labels := f_labels f;
                          f_tlabels := f_tlabels f; f_lens := f_lens f; f_cols := f_cols f; f_tags := tags;
                          f_steps := f_steps f; f_seqs := f_seqs f |} in
  let* lens := mapM (fun axis => match dget (b_lens b) axis with Some l => pyget l i | None => Err KeyError end)
                    (seq 0 naxes) in
  let flat := prod lens in
  let d := match w_dim w with Some (S n) => if sparse then 1 else S n | _ => 1 end in
  let* f := set_len (w_file w) (offset + i) 0 flat in
  let w := with_file w f in
  let* x := pyget (b_inputs b) i in
  let data := nd_frames (nd_slice lens x) in
  let static := prod (skipn (S naxes) (b_shape b)) in
  let* _ := if length data * static =? flat * d then Ok tt else Err ValueError in
  let* w := insert_inputs w data (match w_dim w with
                                  | Some (S n) => if sparse then (S n, 1) else (S n, 2)
                                  | _ => (1, 1)
                                  end) in
  let* w := if 1 <? length (b_lens b) then insert_other w "sizes" (map of_size lens) 1 1 else Ok w in
  insert_extras w i (b_extra b).

Fixpoint insert_seqs (w : writer) (b : batch) (offset naxes i n : nat) : res writer :=
  match n with
  | 0 => Ok w
  | S n' => let* w' := insert_seq w b offset naxes i in insert_seqs w' b offset naxes (S i) n'
  end.

(** [insert_batch] (lines 1298-1381) *)
Definition insert_batch (w : writer) (b : batch) : res writer :=
  let n_batch := length (b_tags b) in
  let* s0 := pyget (b_shape b) 0 in
  let* _ := assert_ (n_batch =? s0) in
  let* _ := assert_ (length (b_shape b) =? w_ndim w + 1) in
  let* naxes := match b_lens b with [] => Ok 0 | l => let* m := max_list (dkeys l) in Ok (S m) end in
  let* _ := assert_ (naxes <=? w_ndim w) in
  let* _ := assert_ (forallb (fun k => k <? naxes) (dkeys (b_lens b))) in
  let* _ := assert_ (length (b_lens b) =? naxes) in
  let* _ := assert_ (forallb (fun kv => n_batch =? length (snd kv)) (b_lens b)) in
  let* ok := all_res (fun kv => let* m := max_list (snd kv) in let* s := pyget (b_shape b) (S (fst kv)) in Ok (m =? s))
                     (b_lens b) in
  let* _ := assert_ ok in
  let* _ := match w_dim w with
            | Some (S n) => if naxes =? w_ndim w then Ok tt else assert_ (S n =? last (b_shape b) 0)
            | _ => Ok tt
            end in
  let* _ := assert_ (forallb (fun e => n_batch =? length (snd (snd e))) (b_extra b)) in
  let f := w_file w in
  let offset := length (f_lens f) in
  let w := with_file w {| f_inputs := f_inputs f; f_data := f_data f; f_sizes := f_sizes f; f_labels := f_labels f;
                          f_tlabels := f_tlabels f; f_lens := resize (repeat 0 (f_cols f)) (f_lens f) (offset + n_batch);
                          f_cols := f_cols f; f_tags := resize "" (f_tags f) (offset + n_batch);
                          f_steps := f_steps f; f_seqs := f_seqs f |} in
  insert_seqs w b offset naxes 0 n_batch.

Fixpoint insert_batches (w : writer) (bs : list batch) : res writer :=
  match bs with [] => Ok w | b :: bs' => let* w' := insert_batch w b in insert_batches w' bs' end.

(** ** HDFDatasetWriter *)

(** The dataset that is copied: for one epoch the sequences with tag and data per key, the keys, [get_target_list()], per
    key the dim and the number of axes ([num_outputs]), [labels], and whether [num_seqs] is known. *)
Record source := {
  s_keys : list string;
  s_targets : list string;
  s_outputs : @dict string (nat * nat);
  s_labels : @dict string (list string);
  s_known : bool;
  s_seqs : list (string * @dict string (list A))
}.

Definition remove_str (x : string) (l : list string) : list string := filter (fun y => negb (String.eqb x y)) l.

(** the choice of the keys (lines 1450-1479): input key, target keys, all keys, and the names in the file *)
Definition choose_keys (s : source) : res (option string * list string * list string * (string -> string)) :=
  let keys := sort_names (s_keys s) in
  let* _ := assert_ (negb (length keys =? 0)) in
  let keys := remove_str "raw" (remove_str "orth" keys) in
  let targets := filter (fun k => mem_str k keys) (s_targets s) in
  let inputs := filter (fun k => negb (mem_str k targets)) keys in
  let* input := match inputs with
                | [] => match targets with [] => Err IndexError | _ => Ok None end
                | [k] => Ok (Some k)
                | _ => if mem_str "data" inputs then Ok (Some "data") else Err OtherException
                end in
  let is_input k := match input with Some i => String.eqb k i | None => false end in
  let targets := targets ++ filter (fun k => negb (is_input k)) inputs in
  let mapped := filter (fun k => negb (is_input k)) keys in
  let name k := if String.eqb k "data" then "classes" else k in
  let* _ := if mem_str "data" mapped then assert_ (negb (mem_str "classes" mapped)) else Ok tt in
  Ok (input, targets, keys, name).

Definition seq_frames (x : string * @dict string (list A)) (key : string) : res (list A) :=
  match dget (snd x) key with Some l => Ok l | None => Err KeyError end.

(** [dump_from_dataset] (lines 1434-1594), with [start_seq] and [end_seq]. The two passes over the dataset give the same
    sequences, and the length of a sequence is the number of its frames. The max length of the tags and the dtypes are
    not modelled. *)
Definition dump_from_dataset (s : source) (start_seq : nat) (end_seq : option nat) : res hfile :=
  let* (input, targets, keys, name) := choose_keys s in
  let seqs := match end_seq with
              | None => skipn start_seq (s_seqs s)
              | Some e => pyslice (s_seqs s) start_seq (S e)
              end in
  let n := length (s_seqs s) in
  let* _ := match s_known s, end_seq with
            | true, None => assert_ (start_seq <? n)
            | true, Some e => assert_ (start_seq <? Nat.min n e)
            | false, Some e => assert_ (start_seq <? e)
            | false, None => Ok tt
            end in
  let* _ := assert_ (negb (length seqs =? 0)) in
  let* lens := mapM (fun x =>
      let* ls := mapM (fun k => let* l := seq_frames x k in Ok (length l))
                      ((match input with Some i => [i] | None => [] end) ++ sort_names targets) in
      let* _ := if length ls =? length keys then Ok tt else Err TypeError in
      Ok ls) seqs in
  let* datas := mapM (fun k => let* l := mapM (fun x => seq_frames x k) seqs in Ok (k, concat l)) keys in
  let out k := match dget (s_outputs s) k with Some o => o | None => (1, 1) end in
  let is_input k := match input with Some i => String.eqb k i | None => false end in
  let others := filter (fun kl => negb (is_input (fst kl))) datas in
  Ok {| f_inputs := match input with
                    | None => None
                    | Some i => match dget datas i with Some l => Some (l, out i) | None => None end
                    end;
        f_data := Some (fold_left (fun d kl => dset d (name (fst kl)) (snd kl)) others []);
        f_sizes := fold_left (fun d kl => dset d (name (fst kl)) (out (fst kl))) others [];
        f_labels := None;
        f_tlabels := fold_left (fun d kl => match dget (s_labels s) (fst kl) with
                                            | Some ls => dset d (name (fst kl)) ls
                                            | None => d
                                            end) others [];
        f_lens := lens; f_cols := length keys; f_tags := map fst seqs; f_steps := 0; f_seqs := 0 |}.

(** ** HDFDataset without cache ([cache_byte_size] 0) and with [window] 1 *)

Record reader := {
  r_files : list hfile;
  r_keys : list string;
  r_file_start : list nat;
  r_seq_start : list (list (list nat));
  r_num_inputs : nat;
  r_outputs : @dict string (nat * nat);
  r_targets : list string;
  r_labels : @dict string (list string);
  r_num_seqs : nat;
  r_tag_idx : @dict string nat;
  r_index : list nat
}.

Definition empty_reader : reader :=
  {| r_files := []; r_keys := []; r_file_start := [0]; r_seq_start := []; r_num_inputs := 0; r_outputs := [];
     r_targets := []; r_labels := []; r_num_seqs := 0; r_tag_idx := []; r_index := [] |}.

(** [numpy.cumsum(seq_lengths, axis=0)] with a zero row before *)
Fixpoint vec_add (a b : list nat) : list nat :=
  match a, b with x :: a', y :: b' => (x + y) :: vec_add a' b' | _, _ => [] end.
Fixpoint cumsum (start : list nat) (rows : list (list nat)) : list (list nat) :=
  match rows with [] => [start] | r :: rows' => start :: cumsum (vec_add start r) rows' end.

Definition dict_same (a b : @dict string (nat * nat)) : bool :=
  forallb (fun kv => match dget b (fst kv) with
                     | Some v => (fst (snd kv) =? fst v) && (snd (snd kv) =? snd v)
                     | None => false
                     end) a
  && forallb (fun kv => dhas a (fst kv)) b.

Definition strs_eqb (a b : list string) : bool :=
  (length a =? length b) && forallb (fun xy => String.eqb (fst xy) (snd xy)) (combine a b).

Definition opt_index (x : option nat) : res nat := match x with Some i => Ok i | None => Err ValueError end.

(** [add_file] (lines 79-223). [_num_codesteps] (only for the cache) and time stamps are not modelled, neither are files
    where the lengths have one axis, or with "targets" but without "targets/size", or with scalar sizes. *)
Definition add_file (r : reader) (f : hfile) : res reader :=
  let prev := match r_files r with [] => None | _ => Some (r_keys r) end in
  let keys := match f_data f with
              | Some d => sort_names (dkeys d ++ filter (fun k => negb (mem_str k (dkeys d))) (dkeys (f_sizes f)))
              | None => ["classes"]
              end in
  let labels := match f_data f with
                | Some _ => fold_left (fun ls kv => if dhas ls (fst kv) then ls else dset ls (fst kv) (map cut_nul (snd kv)))
                                      (f_tlabels f) (r_labels r)
                | None => r_labels r
                end in
  let labels := match f_labels f, f_inputs f with
                | Some ls, Some _ => if dhas labels "data" then labels else dset labels "data" (map cut_nul ls)
                | _, _ => labels
                end in
  let num_input_keys := match f_inputs f with Some _ => 1 | None => 0 end in
  let* _ := assert_ (f_cols f =? num_input_keys + length keys) in
  let* (lens, cols, keys) :=
    match prev with
    | Some p =>
        if strs_eqb p keys then Ok (f_lens f, f_cols f, keys)
        else
          let* _ := assert_ (forallb (fun k => mem_str k keys) p) in
          let* idxs := mapM (fun k => opt_index (index_str k keys)) p in
          let cs := 0 :: map S idxs in
          let* _ := if forallb (fun c => c <? f_cols f) cs then Ok tt else Err IndexError in
          Ok (map (fun row => map (fun c => nth c row 0) cs) (f_lens f), length cs, p)
    | None => Ok (f_lens f, f_cols f, keys)
    end in
  let* _ := if (cols =? 0) || (length lens =? 0) then Err IndexError else Ok tt in
  let seq_start := cumsum (repeat 0 cols) lens in
  let nseqs := length seq_start - 1 in
  let* _ := match f_inputs f with Some _ => assert_ (negb (mem_str "data" keys)) | None => Ok tt end in
  let num_inputs := match f_inputs f with Some (_, k) => k | None => (0, 0) end in
  let r_num := if r_num_inputs r =? 0 then fst num_inputs else r_num_inputs r in
  let* _ := assert_ (r_num =? fst num_inputs) in
  let* outs := match f_data f with
               | None => Ok []
               | Some _ => mapM (fun k => match dget (f_sizes f) k with Some s => Ok (k, s) | None => Err KeyError end) keys
               end in
  let outs := fold_left (fun d kv => dset d (fst kv) (snd kv)) outs [] in
  let outs := match f_inputs f with Some _ => dset outs "data" num_inputs | None => outs end in
  let r_outs := match r_outputs r with [] => outs | o => o end in
  let* _ := assert_ (dict_same r_outs outs) in
  let* targets := match f_data f with
                  | None => Ok (r_targets r)
                  | Some d =>
                      let* _ := if forallb (fun k => dhas d k) keys then Ok tt else Err KeyError in
                      Ok (r_targets r ++ filter (fun k => negb (mem_str k (r_targets r))) keys)
                  end in
  let starts := r_seq_start r ++ [seq_start] in
  let* first := pyget starts 0 in
  let* row := pyget first 0 in
  let* _ := assert_ (num_input_keys + length keys =? length row) in
  Ok {| r_files := r_files r ++ [f]; r_keys := keys;
        r_file_start := r_file_start r ++ [last (r_file_start r) 0 + nseqs];
        r_seq_start := starts; r_num_inputs := r_num; r_outputs := r_outs; r_targets := targets; r_labels := labels;
        r_num_seqs := r_num_seqs r + nseqs; r_tag_idx := r_tag_idx r; r_index := r_index r |}.

Fixpoint add_files (r : reader) (fs : list hfile) : res reader :=
  match fs with [] => Ok r | f :: fs' => let* r' := add_file r f in add_files r' fs' end.

(** the constructor (lines 34-60) *)
Definition open_files (fs : list hfile) : res reader := add_files empty_reader fs.

(** [_get_file_index] (lines 465-469): [bisect.bisect(file_start, i) - 1] *)
Definition file_index (r : reader) (i : nat) : nat := length (filter (fun s => s <=? i) (r_file_start r)) - 1.

(** start and end position of a sequence in all columns *)
Definition positions (r : reader) (i : nat) : res (nat * nat * list nat * list nat) :=
  let fi := file_index r i in
  let* starts := pyget (r_seq_start r) fi in
  let* st := pyget (r_file_start r) fi in
  let* p := pyget starts (i - st) in
  let* q := pyget starts (S (i - st)) in
  Ok (fi, i - st, p, q).

(** [get_data_keys] (datasets/cached.py lines 629-638) *)
Definition data_keys (r : reader) : list string :=
  (if 0 <? r_num_inputs r then ["data"] else []) ++ r_targets r.

(** [_get_data_by_real_seq_idx] (lines 318-353). The cache of opened h5py datasets is not modelled: a target with the name
    "inputs" (which [SimpleHDFWriter] refuses) or "#seqTags" would be mixed up by it. *)
Definition real_data (r : reader) (i : nat) (key : string) : res (list A) :=
  let* (fi, _, p, q) := positions r i in
  let* f := pyget (r_files r) fi in
  if String.eqb key "data" && (0 <? r_num_inputs r) then
    match f_inputs f with
    | None => Err AssertionError
    | Some (l, _) => let* a := pyget p 0 in let* b := pyget q 0 in Ok (pyslice l a b)
    end
  else
    match f_data f with
    | None => Err AssertionError
    | Some d =>
        match dget d key with
        | None => Err KeyError
        | Some l =>
            let* idx := opt_index (index_str key (r_keys r)) in
            let ldx := (if 0 <? r_num_inputs r then 1 else 0) + idx in
            let* a := pyget p ldx in let* b := pyget q ldx in Ok (pyslice l a b)
        end
    end.

(** [_get_seq_length_by_real_idx] (lines 383-395) *)
Fixpoint vec_sub (a b : list nat) : list nat :=
  match a, b with x :: a', y :: b' => (x - y) :: vec_sub a' b' | _, _ => [] end.
Definition real_lens (r : reader) (i : nat) : res (list nat) :=
  let* (_, _, p, q) := positions r i in Ok (vec_sub q p).

(** [get_seq_length] (datasets/cached.py lines 579-592) *)
Definition real_seq_length (r : reader) (i : nat) : res (@dict string nat) :=
  let* ls := real_lens r i in
  if 0 <? r_num_inputs r then
    let* l := pyget ls 0 in
    Ok (fold_left (fun d kl => dset d (fst kl) (snd kl)) (combine (r_keys r) (skipn 1 ls)) [("data", l)])
  else Ok (fold_left (fun d kl => dset d (fst kl) (snd kl)) (combine (r_keys r) ls) []).

(** [_get_tag_by_real_idx] (lines 397-406) *)
Definition real_tag (r : reader) (i : nat) : res string :=
  let* (fi, k, _, _) := positions r i in
  let* f := pyget (r_files r) fi in
  let* t := pyget (f_tags f) k in
  Ok (cut_nul t).

(** [_update_tag_idx] (datasets/cached.py lines 148-152): once, from all sequences *)
Definition update_tag_idx (r : reader) : res reader :=
  match r_tag_idx r with
  | _ :: _ => Ok r
  | [] =>
      let* ts := mapM (fun i => let* t := real_tag r i in Ok (t, i)) (seq 0 (r_num_seqs r)) in
      Ok {| r_files := r_files r; r_keys := r_keys r; r_file_start := r_file_start r; r_seq_start := r_seq_start r;
            r_num_inputs := r_num_inputs r; r_outputs := r_outputs r; r_targets := r_targets r; r_labels := r_labels r;
            r_num_seqs := r_num_seqs r; r_tag_idx := fold_left (fun d ti => dset d (fst ti) (snd ti)) ts [];
            r_index := r_index r |}
  end.

Inductive order := BySeqOrder (l : list nat) | BySeqList (l : list string) | ByEpoch (l : list nat).

(** [init_seq_order] (datasets/cached.py lines 78-131) without cache: the new order replaces the old one. For [ByEpoch] the
    list is what [get_seq_order_for_epoch] returned. *)
Definition init_seq_order (r : reader) (o : order) : res reader :=
  let* (r, idx) := match o with
                   | BySeqOrder l => Ok (r, l)
                   | BySeqList ts =>
                       let* r := update_tag_idx r in
                       let* l := mapM (fun t => match dget (r_tag_idx r) t with Some i => Ok i | None => Err KeyError end) ts in
                       Ok (r, l)
                   | ByEpoch l => Ok (r, l)
                   end in
  Ok {| r_files := r_files r; r_keys := r_keys r; r_file_start := r_file_start r; r_seq_start := r_seq_start r;
        r_num_inputs := r_num_inputs r; r_outputs := r_outputs r; r_targets := r_targets r; r_labels := r_labels r;
        r_num_seqs := r_num_seqs r; r_tag_idx := r_tag_idx r; r_index := idx |}.

(** [num_seqs], [get_corpus_seq_idx], [get_data] (lines 291-302), [get_tag] (lines 408-414), [get_seq_length] *)
Definition num_seqs (r : reader) : nat := length (r_index r).
Definition get_data (r : reader) (i : nat) (key : string) : res (list A) := let* j := pyget (r_index r) i in real_data r j key.
Definition get_tag (r : reader) (i : nat) : res string := let* j := pyget (r_index r) i in real_tag r j.
Definition get_seq_length (r : reader) (i : nat) : res (@dict string nat) :=
  let* j := pyget (r_index r) i in real_seq_length r j.

(** [get_data_by_seq_tag] (lines 304-316) *)
Definition get_data_by_seq_tag (r : reader) (tag : string) (key : string) : res (reader * list A) :=
  let* r := update_tag_idx r in
  match dget (r_tag_idx r) tag with
  | None => Err KeyError
  | Some i => let* d := real_data r i key in Ok (r, d)
  end.

(** [get_all_tags] (lines 433-440) *)
Definition get_all_tags (r : reader) : list string := map cut_nul (flat_map f_tags (r_files r)).
End Hdf.

(** ** [close] (lines 1383-1404) *)
(** The file operations in order. Copying is not atomic: the destination has some part of the content until the last byte
    is written. Renaming within a directory is. *)
Inductive fop := FCopyPart (n : nat) | FRename | FRemoveTmp.
Record disk {C} := { d_dest : option (list C); d_copying : option (list C); d_tmp : option (list C) }.
Arguments disk : clear implicits.

Definition run_op {C} (d : disk C) (o : fop) : disk C :=
  match o with
  | FCopyPart n => {| d_dest := d_dest d; d_copying := option_map (firstn n) (d_tmp d); d_tmp := d_tmp d |}
  | FRename => {| d_dest := d_copying d; d_copying := None; d_tmp := d_tmp d |}
  | FRemoveTmp => {| d_dest := d_dest d; d_copying := d_copying d; d_tmp := None |}
  end.
(** all operations of [close] for a temporary file with [n] bytes *)
Definition close_ops (n : nat) : list fop := map FCopyPart (seq 0 (S n)) ++ [FRename; FRemoveTmp].
Definition run_ops {C} (d : disk C) (ops : list fop) : disk C := fold_left run_op ops d.
