(** What batching should do. *)
From Coq Require Import String.
From Verif Require Import Base PyDict NumbersDictModel NumbersDictSpec BatchPipeModel.

Section Spec.
  Context {X : Type}.
  Implicit Types (s : seqd X) (b : list (seqd X)).

  (** number of frames of a sequence for a data key; 0 if the key has no frames *)
  Definition frames_of s (k : string) : nat :=
    match find (fun p => String.eqb (fst p) k) s with
    | Some (_, Frames l) => List.length l
    | _ => 0
    end.
  (** size of the batch for a data key when all sequences are padded to the longest *)
  Definition padded_size b (k : string) : nat := List.length b * list_max (map (fun s => frames_of s k) b).
  (** the padded size is within the limit for every key that has one *)
  Definition within (limit : ndict Z) b : Prop :=
    forall k m, at_key limit k = Some m -> (Z.of_nat (padded_size b k) <= m)%Z.
  (** a usable limit *)
  Definition positive_limit (limit : ndict Z) : Prop :=
    (nd_dict limit <> [] \/ nd_value limit <> None) /\
    (forall k m, In (k, m) (nd_dict limit) -> (0 < m)%Z) /\ (forall m, nd_value limit = Some m -> (0 < m)%Z).
End Spec.

(** The option max_seqs: not given or -1 means no limit. *)
Definition seq_limit (max_seqs : option Z) : option Z :=
  match max_seqs with None => None | Some m => if Z.eq_dec m (-1) then None else Some m end.

(** ** buckets *)
Section BucketSpec.
  Context {X : Type}.
  Variable length_key : string.
  Implicit Types (s : seqd X) (b : list (seqd X)).

  (** the length that decides on the bucket *)
  Definition seq_size s : Z := Z.of_nat (frames_of s length_key).
  (** [s] has frames for the length key *)
  Definition has_size s : Prop := exists l, In (length_key, Frames l) s.
  (** not longer than the largest bucket *)
  Definition fits_some (buckets : list (Z * Z)) s : bool := existsb (fun '(size, _) => (seq_size s <=? size)%Z) buckets.
  (** bucket [(size, _)] is the smallest one which is large enough *)
  Definition best_fit (buckets : list (Z * Z)) (size : Z) s : bool :=
    (seq_size s <=? size)%Z && forallb (fun '(size', _) => (size <=? size')%Z || (size' <? seq_size s)%Z) buckets.
End BucketSpec.
