(** Vocabulary for C25: which chunks a batch holds, and which limits apply. *)
From Coq Require Import String.
From Verif Require Import Base PyDict NumbersDictModel NumbersDictSpec BatchGenModel.
Local Open Scope nat_scope. Local Open Scope list_scope. Local Open Scope Z_scope.
Local Notation length := List.length.

Definition number_at (n : ndict Z) (k : string) : Z := match at_key n k with Some v => v | None => 0 end.
(** The frames of a chunk in the data stream [k], with the context window. *)
Definition first_frame (lim : limits) (c : chunk) (k : string) : Z := number_at (k_start c) k - number_at (l_ctx_left lim) k.
Definition end_frame (lim : limits) (c : chunk) (k : string) : Z := number_at (k_end c) k + number_at (l_ctx_right lim) k.
Definition frames (lim : limits) (c : chunk) (k : string) : Z := end_frame lim c k - first_frame lim c k.

(** All chunks come from one dataset with the data streams [K]. *)
Definition keyed (lim : limits) (K : list string) (cs : list chunk) : Prop :=
  K <> [] /\ (forall c, In c cs -> nd_value (k_start c) = None /\ nd_value (k_end c) = None /\ forall k, (has_key (k_start c) k <-> In k K) /\ (has_key (k_end c) k <-> In k K)) /\
  nd_value (l_ctx_left lim) = None /\ nd_value (l_ctx_right lim) = None /\ forall k, has_key (l_ctx_left lim) k \/ has_key (l_ctx_right lim) k -> In k K.

(** Chunks that are not dropped and have an allowed length in all streams. *)
Definition at_most (x : Z) (limit : option Z) : bool := match limit with Some w => x <=? w | None => true end.
Definition at_least (x : Z) (limit : option Z) : bool := match limit with Some w => w <=? x | None => true end.
Definition wanted (lim : limits) (K : list string) (c : chunk) : bool :=
  k_sample c && negb (k_drop c) && forallb (fun k => at_most (frames lim c k) (at_key (l_max_len lim) k) && at_least (frames lim c k) (at_key (l_min_len lim) k)) K.

Definition sum (l : list Z) : Z := fold_right Z.add 0 l.
(** the padded length: the longest of the chunks *)
Definition longest (lim : limits) (g : list chunk) (k : string) : Z := fold_right Z.max 0 (map (fun c => frames lim c k) g).
(** Together in one batch, the chunks [g] respect all limits: the number of sequences; the frames, counted with padding; the padding. *)
Definition fits (lim : limits) (K : list string) (g : list chunk) : Prop :=
  (forall m, l_max_seqs lim = Some m -> (length g <= m)%nat) /\
  (forall k, In k K -> forall w, at_key (l_batch_size lim) k = Some w -> longest lim g k * Z.of_nat (length g) <= w) /\
  (forall k, In k K -> forall w, at_key (l_max_pad lim) k = Some w -> longest lim g k * Z.of_nat (length g) - sum (map (fun c => frames lim c k) g) <= w).
(** The part [p] of a batch is the chunk [c], in the slice [i]. *)
Definition is_part (lim : limits) (i : nat) (p : part) (c : chunk) : Prop :=
  p_idx p = k_idx c /\ p_slice p = i /\ (forall k, number_at (p_start p) k = first_frame lim c k /\ number_at (p_end p) k = end_frame lim c k /\ number_at (p_offset p) k = 0).
(** The batch [b] consists of exactly the chunks [g], each in its own slice, and its padded length is the longest. *)
Definition holds (lim : limits) (b : batch) (g : list chunk) : Prop :=
  b_slices b = length g /\ length (b_seqs b) = length g /\
  (forall i p c, nth_error (b_seqs b) i = Some p -> nth_error g i = Some c -> is_part lim i p c) /\
  (forall k, number_at (b_max b) k = longest lim g k).
(** [n] has numbers, and all are positive. *)
Definition positive (n : ndict Z) : Prop := nd_values n <> [] /\ forall v, In v (nd_values n) -> 0 < v.

(** ** For non-recurrent nets: everything in terms of single frames. *)
Definition range (s e : Z) : list Z := map (fun i => s + Z.of_nat i) (seq 0 (Z.to_nat (e - s))).
Definition chunk_frames (c : nat * Z * Z) : list (nat * Z) := let '(i, s, e) := c in map (fun t => (i, t)) (range s e).
Definition batch_frames (b : fbatch) : list (nat * Z) := flat_map (fun p => chunk_frames (f_idx p, f_start p, f_end p)) (fb_seqs b).
(** The parts of the batch lie one behind the other. *)
Definition contiguous (b : fbatch) : Prop :=
  forall l p r, fb_seqs b = l ++ p :: r -> f_offset p = Z.of_nat (length (flat_map (fun p => chunk_frames (f_idx p, f_start p, f_end p)) l)) /\ f_start p < f_end p.

(** The same limits without the limit on the total number of sequences. *)
Definition no_total (lim : limits) : limits :=
  mk_limits (l_batch_size lim) (l_max_pad lim) (l_max_len lim) (l_min_len lim) (l_max_seqs lim) None (l_ctx_left lim) (l_ctx_right lim).
(** How many sequences: the chunks of one sequence follow each other. *)
Fixpoint runs_from (last : option nat) (l : list nat) : nat :=
  match l with
  | [] => 0
  | i :: l' => ((if match last with Some j => (i =? j)%nat | None => false end then 0 else 1) + runs_from (Some i) l')%nat
  end.
Definition number_of_seqs (cs : list chunk) : nat := runs_from None (map k_idx cs).
