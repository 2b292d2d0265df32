(** Model of the batching data pipes, returnn/torch/data/pipeline.py:205-501. *)
From Coq Require Import String.
From Verif Require Import Base PyDict NumbersDictModel.

(** The data of one key of a sequence: a numpy array is either 0-dimensional or a list of frames (the first axis). *)
Inductive arr (X : Type) := Scalar (x : X) | Frames (l : list X).
Arguments Scalar {X}. Arguments Frames {X}.

(** A sequence: dict data_key -> array. *)
Notation seqd X := (dict string (arr X)).

(** pipeline.py:307-309 and 491-493: [{data_key: data.shape[0] for ... in data_dict.items() if data.shape}] *)
Definition sequence_lengths {X} (s : seqd X) : ndict Z :=
  ND (flat_map (fun '(k, a) => match a with Frames l => [(k, Z.of_nat (List.length l))] | Scalar _ => [] end) s) None.

(** python [sys.maxsize] *)
Definition maxsize : Z := (2 ^ 63 - 1)%Z.

(** pipeline.py:254 and 269: the limits from the config, [None] for no limit (and -1 for [max_seqs]). A callable limit
    is called for each sequence; so from here on the limits are functions of the sequence. *)
Definition parse_batch_size (b : option (operand Z)) : ndict Z :=
  match b with None => nd_make (OpNum maxsize) | Some x => nd_make x end.
Definition parse_max_seqs (m : option Z) : Z :=
  match m with None => maxsize | Some m => if (m =? -1)%Z then maxsize else m end.

(** What a generator does: the items it has yielded, and how it ended (normally, or with an exception). *)
Definition gen (A : Type) := (list A * res unit)%type.
Definition yield {A} (x : A) (g : gen A) : gen A := (x :: fst g, snd g).
Definition gen_raise {A} (e : err) : gen A := ([], Err e).
Definition gen_end {A} : gen A := ([], Ok tt).

Section Batching.
  Context {X : Type}.
  Variable max_seqs : seqd X -> Z.
  Variable max_batch_size : seqd X -> ndict Z.

  (** pipeline.py:286-323 [BatchingIterDataPipe.__iter__]. [cur] is [current_batch], [lens] is
      [current_max_sequence_lengths]. *)
  Fixpoint batching_loop (data : list (seqd X)) (cur : list (seqd X)) (lens : ndict Z) : gen (list (seqd X)) :=
    match data with
    | [] => if (0 <? List.length cur) then yield cur gen_end else gen_end
    | s :: data' =>
        if (max_seqs s <=? 0)%Z then gen_raise AssertionError else
        match min_value (max_batch_size s) with
        | Err e => gen_raise e
        | Ok m =>
            if (m <=? 0)%Z then gen_raise AssertionError else
            let go cur lens :=
              let sl := sequence_lengths s in
              let incl := strip (bin_op opt_max None (NumND lens) (NumND sl)) in
              let size := nd_mul (NumND incl) (Num (Z.of_nat (List.length cur) + 1)%Z) in
              if (0 <? List.length cur) && any_compare Z.gtb size (max_batch_size s)
              then yield cur (batching_loop data' [s] sl)
              else batching_loop data' (cur ++ [s]) incl in
            if (max_seqs s <=? Z.of_nat (List.length cur))%Z
            then yield cur (go [] (nd_make (OpNum 0%Z)))
            else go cur lens
        end
    end.
  Definition batching (data : list (seqd X)) : gen (list (seqd X)) :=
    batching_loop data [] (nd_make (OpNum 0%Z)).
End Batching.

(** pipeline.py:483-498 [LenFilterDataPipe.__iter__] *)
Definition len_filter {X} (min_len max_len : ndict Z) (data : list (seqd X)) : list (seqd X) :=
  filter (fun s => negb (any_compare Z.ltb (sequence_lengths s) min_len)
                   && negb (any_compare Z.gtb (sequence_lengths s) max_len)) data.

(** ** Bucket batching *)

(** pipeline.py:369 [sorted(buckets)]: pairs in lexicographic order; a library function, modelled by insertion sort *)
Definition pair_le (a b : Z * Z) : bool := (fst a <? fst b)%Z || ((fst a =? fst b)%Z && (snd a <=? snd b)%Z).
Fixpoint insert_pair (x : Z * Z) (l : list (Z * Z)) : list (Z * Z) :=
  match l with
  | [] => [x]
  | y :: l' => if pair_le x y then x :: l else y :: insert_pair x l'
  end.
Definition sorted_pairs (l : list (Z * Z)) : list (Z * Z) := fold_right insert_pair [] l.

(** pipeline.py:366-370, the checks of the constructor. [len(set(l)) == len(l)] holds iff there is no duplicate. *)
Fixpoint has_dup (l : list Z) : bool :=
  match l with [] => false | x :: l' => existsb (Z.eqb x) l' || has_dup l' end.
Definition bucket_init (buckets : list (Z * Z)) : res (list (Z * Z)) :=
  let* _ := assert_ (match buckets with [] => false | _ => true end) in
  if negb (forallb (fun '(size, max_seqs) => (0 <? size)%Z && (0 <? max_seqs)%Z) buckets) then Err ValueError else
  let bs := sorted_pairs buckets in
  let* _ := assert_ (negb (has_dup (map fst bs))) in
  Ok bs.

(** [bisect.bisect_left(l, x)] for a sorted list: the number of elements below [x]. A library function. *)
Fixpoint bisect_left (l : list Z) (x : Z) : nat :=
  match l with [] => 0 | a :: l' => if (a <? x)%Z then S (bisect_left l' x) else 0 end.

Fixpoint update_nth {A} (l : list A) (i : nat) (x : A) : list A :=
  match l, i with
  | [], _ => []
  | _ :: l', 0 => x :: l'
  | a :: l', S i' => a :: update_nth l' i' x
  end.

Section Bucket.
  Context {X : Type}.
  (** the sorted bucket configuration *)
  Variable bs : list (Z * Z).
  Variable length_key : string.
  (** The random generator, pipeline.py:384-389: for the n-th sequence and its best fitting bucket, [Some j] if the
      draw says to use the random bucket [j]. ([None] always, if [random_bucket_prob] is 0.) *)
  Variable draw : nat -> nat -> option nat.

  (** pipeline.py:379 [data_dict[length_key].shape[0]] *)
  Definition data_size (s : seqd X) : res Z :=
    match dget s length_key with
    | None => Err KeyError
    | Some (Scalar _) => Err IndexError
    | Some (Frames l) => Ok (Z.of_nat (List.length l))
    end.

  (** pipeline.py:372-397 [BucketOrderingIterDataPipe.__iter__], without the counters for the log message *)
  Fixpoint bucket_loop (n : nat) (data : list (seqd X)) (buckets : list (list (seqd X))) : gen (list (seqd X)) :=
    match data with
    | [] => (filter (fun b => 0 <? List.length b) buckets, Ok tt)
    | s :: data' =>
        match data_size s with
        | Err e => gen_raise e
        | Ok size =>
            let i := bisect_left (map fst bs) size in
            if List.length bs <=? i then bucket_loop (S n) data' buckets else
            let i := if i <? List.length bs - 1 then match draw n i with Some j => j | None => i end else i in
            match nth_error buckets i, nth_error bs i with
            | Some b, Some (_, limit) =>
                let b' := b ++ [s] in
                if (limit <=? Z.of_nat (List.length b'))%Z
                then yield b' (bucket_loop (S n) data' (update_nth buckets i []))
                else bucket_loop (S n) data' (update_nth buckets i b')
            | _, _ => gen_raise IndexError
            end
        end
    end.
  Definition bucket_batching (data : list (seqd X)) : gen (list (seqd X)) :=
    bucket_loop 0 data (map (fun _ => []) bs).
End Bucket.
