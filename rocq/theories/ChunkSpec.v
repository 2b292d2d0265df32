(** What chunking and collating should do. *)
From Coq Require Import String.
From Verif Require Import Base PyDict NumbersDictModel NumbersDictSpec BatchPipeModel.

(** The [i]-th window: [size] frames from frame [i * step] on, less at the end. *)
Definition window_at {X} (size step : nat) (l : list X) (i : nat) : list X := firstn size (skipn (i * step) l).

(** [cs] are the windows that start within [l], in order, without those shorter than [min]. *)
Definition is_chunking {X} (size step min : nat) (l : list X) (cs : list (list X)) : Prop :=
  exists n, (forall i, i < n <-> i * step < List.length l) /\
    cs = filter (fun c => min <=? List.length c) (map (window_at size step l) (seq 0 n)).

(** The user configured the number [f k] for each of the keys. *)
Definition configured (n : ndict Z) (f : string -> nat) (keys : list string) : Prop :=
  forall k, In k keys -> at_key n k = Some (Z.of_nat (f k)).

(** The sequence has frames (not only a number) at each of the keys. *)
Definition has_frames {X} (s : seqd X) (keys : list string) : Prop :=
  forall k, In k keys -> exists l, In (k, Frames l) s.

(** All keys of the sequence split into the same number of chunks. *)
Definition same_number_of_chunks {X} (size step min : string -> nat) (keys : list string) (s : seqd X) : Prop :=
  exists n, forall k l cs, In k keys -> In (k, Frames l) s -> is_chunking (size k) (step k) (min k) l cs -> List.length cs = n.

(** [g] is what one sequence [s] becomes: at each key that is chunked, the successive sequences of [g] have the
    successive chunks, and everything else is in each of them as it was. *)
Definition chunks_of_seq {X} (size step min : string -> nat) (keys : list string) (s : seqd X) (g : list (seqd X)) : Prop :=
  (forall k l, In k keys -> In (k, Frames l) s ->
     exists cs, is_chunking (size k) (step k) (min k) l cs /\ Forall2 (fun c (o : seqd X) => In (k, Frames c) o) cs g) /\
  (forall k v o, ~ In k keys -> In o g -> (In (k, v) o <-> In (k, v) s)) /\
  (forall o, In o g -> dict_ok o).

(** The keys that are chunked: those of the configured dict, or with a single number for all,
    those of the first sequence except the meta information. *)
Definition keys_to_chunk {X} (cfg : ndict Z) (data : list (seqd X)) (keys : list string) : Prop :=
  match nd_dict cfg, data with
  | [], s :: _ => forall k, In k keys <-> has_key (ND s None) k /\
       ~ In k ["seq_tag"; "seq_idx"; "num_seqs"; "epoch"; "complete_frac"]%string
  | [], [] => True
  | d, _ => keys = map fst d
  end.

(** What the user writes for the chunk size or step: a number for all keys, or numbers per key. *)
Definition as_written (x : operand Z) : ndict Z :=
  match x with OpNum v => ND [] (Some v) | OpDict d => ND d None | OpND n => n end.
Definition plain (x : operand Z) : Prop := match x with OpND _ => False | _ => True end.
Definition no_number_twice (x : option (operand Z)) : Prop := match x with Some x => dict_ok (nd_dict (as_written x)) | None => True end.
(** The numbers which are in there. *)
Definition has_number (n : ndict Z) (v : Z) : Prop := (exists k, In (k, v) (nd_dict n)) \/ nd_value n = Some v.
Definition chunking_off (size : ndict Z) : Prop := forall v, has_number size v -> v = 0%Z.
(** Positive sizes, and steps for the same keys, one of which is positive. *)
Definition good_chunking (size step : ndict Z) : Prop :=
  (forall v, has_number size v -> (0 < v)%Z) /\ (forall k, has_key size k <-> has_key step k) /\ exists v, has_number step v /\ (0 < v)%Z.

(** ** Collating *)
(** [rows] are the sequences [ls] padded with [zero] to a common length, the largest of theirs. *)
Definition is_padded {X} (zero : X) (ls rows : list (list X)) : Prop :=
  exists m, (forall l, In l ls -> List.length l <= m) /\ (ls <> [] -> exists l, In l ls /\ List.length l = m) /\
    Forall2 (fun l row => List.length row = m /\ firstn (List.length l) row = l /\ Forall (eq zero) (skipn (List.length l) row)) ls rows.

(** The values of the sequences at a key, when all have frames there, or all a single value. *)
Definition all_frames {X} (batch : list (seqd X)) (k : string) (ls : list (list X)) : Prop :=
  Forall2 (fun s l => In (k, Frames l) s) batch ls.
Definition all_scalars {X} (batch : list (seqd X)) (k : string) (xs : list X) : Prop :=
  Forall2 (fun s x => In (k, Scalar x) s) batch xs.
Definition is_meta_key (k : string) : Prop := (k = "num_seqs" \/ k = "epoch" \/ k = "complete_frac")%string.

(** What can be collated: at each key of the first sequence all sequences have frames or all have a single value,
    (a single value for complete_frac), and the key for the lengths is not already taken. *)
Definition can_collate {X} (batch : list (seqd X)) (keys : list string) : Prop :=
  (forall s, In s batch -> dict_ok s) /\
  (forall k, In k keys -> ~ is_meta_key k -> (exists ls, all_frames batch k ls) \/ (exists xs, all_scalars batch k xs)) /\
  (In "complete_frac"%string keys -> exists xs, all_scalars batch "complete_frac" xs) /\
  (forall k k', In k keys -> In k' keys -> k <> (k' ++ ":seq_len")%string).
(** [ltb] behaves like [<] of a total order. *)
Definition total_order {X} (ltb : X -> X -> bool) : Prop :=
  (forall a, ltb a a = false) /\ (forall a b, ltb a b = true -> ltb b a = false) /\
  (forall a b c, ltb b a = false -> ltb c b = false -> ltb c a = false).
