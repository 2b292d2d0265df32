(* Model of raw_dict_to_extern_data (returnn/torch/data/extern_data.py): how the dims of the data in the config (extern_data)
   get their sizes from a collated batch. *)
From Coq Require Import List Arith String Bool.
From Verif Require Import Base PyDict.
Import ListNotations.

(* a dim of extern_data in the config: of a known size, or a dynamic one (dims are objects: the number is its identity) *)
Inductive dim := Static (n : nat) | Dyn (d : nat).

(* a size which was set: one number (of the batch dim), or the length of each sequence *)
Inductive size := One (n : nat) | PerSeq (lens : list nat).

(* what is known of a key of the batch: the shape of the array, and the entry "key:seq_len" *)
Record raw := { r_shape : list nat; r_lens : option (list nat) }.

Definition set_size (sizes : list (nat * size)) (d : nat) (s : size) : list (nat * size) := (d, s) :: sizes.
Fixpoint get_size (sizes : list (nat * size)) (d : nat) : option size :=
  match sizes with
  | [] => None
  | (x, s) :: sizes => if Nat.eqb x d then Some s else get_size sizes d
  end.

(* extern_data.py 53-57: the sizes of the static dims *)
Fixpoint static_match (dims : list dim) (shape : list nat) : bool :=
  match dims, shape with
  | Static n :: dims, m :: shape => (n =? m) && static_match dims shape
  | Dyn _ :: dims, _ :: shape => static_match dims shape
  | _, _ => true
  end.

(* extern_data.py 49-92: one key. The raw tensor itself is not changed. *)
Definition extern_key (batch_dim : dim) (sizes : list (nat * size)) (dims : list dim) (r : option raw) : res (list (nat * size)) :=
  match r with
  | None => Err KeyError
  | Some r =>
    let* _ := assert_ (List.length (r_shape r) =? List.length dims) in
    let* _ := assert_ (static_match dims (r_shape r)) in
    let* sizes :=
      (match batch_dim with
       | Static _ => Ok sizes
       | Dyn d => match get_size sizes d with
                  | Some _ => Ok sizes
                  | None => match r_shape r with n :: _ => Ok (set_size sizes d (One n)) | [] => Err IndexError end
                  end
       end) in
    match dims with
    | _ :: Dyn d :: _ =>
      match get_size sizes d with
      | Some _ => Ok sizes
      | None => match r_lens r with
                | Some lens => Ok (set_size sizes d (PerSeq lens))
                | None => Err AssertionError
                end
      end
    | _ => Ok sizes
    end
  end.

Fixpoint extern_keys (batch_dim : dim) (sizes : list (nat * size)) (template : list (string * list dim))
    (batch : list (string * raw)) : res (list (nat * size)) :=
  match template with
  | [] => Ok sizes
  | (k, dims) :: template =>
    let* sizes := extern_key batch_dim sizes dims (dget batch k) in extern_keys batch_dim sizes template batch
  end.

(* extern_data.py 25-94. All dynamic dims are reset before (43-45), so that no size is left from the last batch; the batch
   dim is the first dim of the first key (169-178). *)
Definition to_extern (template : list (string * list dim)) (batch : list (string * raw)) : res (list (nat * size)) :=
  let* _ := assert_ (negb (Nat.eqb (List.length batch) 0)) in
  match template with
  | [] => Err StopIteration
  | (_, []) :: _ => Err IndexError
  | (_, b :: _) :: _ => extern_keys b [] template batch
  end.
