(** Model of the data iterator with a queue, of splitting a batch, and of the loop of the forward pass that splits a batch when it runs out of memory:
    /repo/returnn/torch/data/queued_data_iter.py, /repo/returnn/torch/data/extern_data.py:97-155, /repo/returnn/torch/engine.py:1235-1350. *)
From Coq Require Import String.
From Verif Require Import Base PyDict BatchPipeModel ChunkModel.
Local Open Scope string_scope. Local Open Scope nat_scope. Local Open Scope list_scope.

(** ** queued_data_iter.py:12-34. The wrapped iterator is any state with a step: the next item and state, or none for StopIteration. *)
Record qiter (A S : Type) := QIter { q_queue : list A; q_iter : S }.
Arguments QIter {A S}. Arguments q_queue {A S}. Arguments q_iter {A S}.
(** lines 17-19 *)
Definition q_init {A S} (it : S) : qiter A S := QIter [] it.
(** lines 21-26: [self._queue.extend(reversed(items))] *)
Definition q_extend {A S} (q : qiter A S) (items : list A) : qiter A S := QIter (q_queue q ++ rev items) (q_iter q).
(** lines 31-34: [self._queue.pop(-1)] or [next(self._iter)]; the iterator may change its state also when it stops *)
Definition q_next {A S} (step : S -> option A * S) (q : qiter A S) : option A * qiter A S :=
  match rev (q_queue q) with
  | x :: front => (Some x, QIter (rev front) (q_iter q))
  | [] => let '(r, it) := step (q_iter q) in (r, QIter [] it)
  end.
(** an iterator over a list *)
Definition list_step {A} (l : list A) : option A * list A := match l with [] => (None, []) | x :: l' => (Some x, l') end.

(** ** Splitting a batch: extern_data.py. The raw dict is what [collate_batch] gives. *)
Section Split.
  Context {X : Type}.
  Definition raw := dict string (cval X).
  (** [v.shape[0]]; the shape of a 0-dim array is an empty tuple *)
  Definition shape0 (v : cval X) : res nat :=
    match v with
    | CSingle (Scalar _) => Err IndexError
    | CSingle (Frames l) => Ok (List.length l)
    | CPadded rows => Ok (List.length rows)
    | CLens l => Ok (List.length l)
    | CStack l => Ok (List.length l)
    end.
  (** lines 123-125 and 107-109 *)
  Definition batch_size (b : raw) : res nat :=
    match b with [] => Err StopIteration | (_, v) :: _ => shape0 v end.
  (** lines 97-110 *)
  Definition can_split (b : raw) (num_splits : nat) : res bool := let* n := batch_size b in Ok (num_splits <=? n).
  (** lines 146-155 *)
  Fixpoint split_sizes_loop (k remaining size : nat) : list nat * nat :=
    match k with
    | 0 => ([], remaining)
    | S k' => let r := Nat.min remaining size in let '(l, rest) := split_sizes_loop k' (remaining - r) size in (r :: l, rest)
    end.
  Definition split_sizes (num_splits total : nat) : res (list nat) :=
    let* _ := assert_ (num_splits <=? total) in
    if num_splits =? 0 then Err ZeroDivisionError else
    let '(l, rest) := split_sizes_loop num_splits total ((total + num_splits - 1) / num_splits) in
    let* _ := assert_ ((rest =? 0) && (List.length l =? num_splits) && (list_sum l =? total)) in
    Ok l.
  (** line 135: [v[offset : offset + split_size]]; slicing a 0-dim array raises IndexError *)
  Definition slice0 (v : cval X) (offset size : nat) : res (cval X) :=
    match v with
    | CSingle (Scalar _) => Err IndexError
    | CSingle (Frames l) => Ok (CSingle (Frames (pyslice l offset (offset + size))))
    | CPadded rows => Ok (CPadded (pyslice rows offset (offset + size)))
    | CLens l => Ok (CLens (pyslice l offset (offset + size)))
    | CStack l => Ok (CStack (pyslice l offset (offset + size)))
    end.
  (** lines 139-142, one key. [torch.max] of an empty tensor raises a RuntimeError. (Lengths that are not from [collate_batch] are not modelled: TypeError.) *)
  Definition trim (b : raw) (k : string) (v : cval X) : res (cval X) :=
    match dget b (k ++ ":seq_len")%string with
    | None => Ok v
    | Some (CLens []) => Err OtherException
    | Some (CLens lens) =>
        match v with CPadded rows => Ok (CPadded (map (firstn (list_max lens)) rows)) | _ => Err IndexError end
    | Some _ => Err TypeError
    end.
  Definition part (b : raw) (offset size : nat) : res raw :=
    let* p := mapM (fun '(k, v) => let* v' := slice0 v offset size in Ok (k, v')) b in
    mapM (fun '(k, v) => let* v' := trim p k v in Ok (k, v')) p.
  Fixpoint parts (b : raw) (offset : nat) (sizes : list nat) : res (list raw) :=
    match sizes with
    | [] => Ok []
    | n :: sizes' => let* p := part b offset n in let* ps := parts b (offset + n) sizes' in Ok (p :: ps)
    end.
  (** lines 113-143 for a number of splits. (The code first slices all keys for all parts; the exceptions of slicing are the same for each part.) *)
  Definition raw_dict_split_batch (b : raw) (num_splits : nat) : res (list raw) :=
    let* n := batch_size b in
    let* sizes := split_sizes num_splits n in
    let* _ := assert_ (list_sum sizes =? n) in
    parts b 0 sizes.
End Split.
Arguments raw : clear implicits.

(** ** The loop of the forward pass: engine.py:1293-1350. [B] are the batches. [meta b] is lines 1297-1298 (they read [complete_frac] and [num_seqs]), [oom k b] tells whether running the model on the batch [b] in the [k]-th attempt runs out of memory, [can] and [split] are the two functions above with 2 splits, [seqs b] is what is given to [callback.process_seq] for a batch (lines 1329-1334). The result is what was given to the callback, and how the loop ended. *)
Section Forward.
  Context {B Q : Type}.
  Variable meta : B -> res unit.
  Variable oom : nat -> B -> bool.
  Variable can : B -> res bool.
  Variable split : B -> res (list B).
  Variable seqs : B -> list Q.
  Fixpoint forward (fuel attempt : nat) (q : qiter B (list B)) (outs : list Q) : list Q * res unit :=
    match fuel with
    | 0 => (outs, Err OutOfFuel)
    | S fuel' =>
        match q_next list_step q with
        | (None, _) => (outs, Ok tt)
        | (Some b, q') =>
            match meta b with
            | Err e => (outs, Err e)
            | Ok _ =>
                if oom attempt b then
                  match can b with
                  | Err e => (outs, Err e)
                  | Ok false => (outs, Err OtherException) (* the out-of-memory error itself *)
                  | Ok true =>
                      match split b with
                      | Err e => (outs, Err e)
                      | Ok ps => forward fuel' (S attempt) (q_extend q' ps) outs
                      end
                  end
                else forward fuel' (S attempt) q' (outs ++ seqs b)
            end
        end
    end.
End Forward.
(** engine.py:1297-1298: [float(...)] and [int(...)] of the two entries; an array converts only if it has one element *)
Definition read_meta {X} (b : raw X) : res unit :=
  let one k := match dget b k with
               | None => Err KeyError
               | Some (CSingle (Scalar _)) => Ok tt
               | Some (CSingle (Frames [_])) => Ok tt
               | Some (CStack [_]) => Ok tt
               | Some _ => Err TypeError
               end in
  let* _ := one "complete_frac" in one "num_seqs".
