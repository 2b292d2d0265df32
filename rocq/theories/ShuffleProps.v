(** Properties C10 and C11: buffered reordering of streams. *)
From Coq Require Import String Sorted.
From Verif Require Import Base ListLemmas PyDict BatchPipeModel ShuffleModel ShuffleSpec ShuffleProofs.
Local Open Scope string_scope.
Local Open Scope list_scope.

(** C10: for every non-empty stream of batches and every random generator: shuffling ends without error; within each
    window of [buffer_size] batches the output is a permutation of the input (apart from the monotonic keys),
    and the values of each monotonic key come out in the input order. *)
Theorem C10_shuffling : forall X buffer_size mono_keys (shuffle : nat -> list (list (seqd X)) -> list (list (seqd X))) data,
  (forall n buf, Permutation (shuffle n buf) buf) -> 0 < buffer_size -> data <> [] ->
  (forall b k s, In b data -> In k mono_keys -> In s b -> In k (dkeys s)) ->
  exists out ws ws', shuffling buffer_size mono_keys shuffle data = (out, Ok tt) /\
    windows buffer_size data ws /\ windows buffer_size out ws' /\
    Forall2 (fun w w' => Permutation (map (map (without mono_keys)) w') (map (map (without mono_keys)) w)) ws ws' /\
    forall k, In k mono_keys -> key_values k out = key_values k data.
Proof. exact (fun X bs mk sh data H => shuffling_spec mk sh H bs data). Qed.
Print Assumptions C10_shuffling.

(** C10: hence nothing is lost or duplicated. *)
Theorem C10_permutation : forall X buffer_size mono_keys (shuffle : nat -> list (list (seqd X)) -> list (list (seqd X))) data,
  (forall n buf, Permutation (shuffle n buf) buf) -> 0 < buffer_size -> data <> [] ->
  (forall b k s, In b data -> In k mono_keys -> In s b -> In k (dkeys s)) ->
  exists out, shuffling buffer_size mono_keys shuffle data = (out, Ok tt) /\
    Permutation (map (map (without mono_keys)) out) (map (map (without mono_keys)) data).
Proof.
  intros X bs mk sh data H1 H2 H3 H4. destruct (C10_shuffling X bs mk sh data H1 H2 H3 H4) as (out&ws&ws'&Ho&Hw&Hw'&Hf&_).
  exists out. split; [exact Ho|]. apply windows_concat in Hw. apply windows_concat in Hw'. subst.
  clear Ho H3 H4. induction Hf as [|w w' ws ws' H Hf IH]; [reflexivity|]. cbn [List.concat]. rewrite !map_app.
  now apply Permutation_app.
Qed.
Print Assumptions C10_permutation.

(** batches of two sequences, with a progress value *)
Definition ex_b (n : nat) : list (seqd nat) :=
  [[("data", Frames [n; n]); ("complete_frac", Scalar (2 * n))]; [("data", Frames [n]); ("complete_frac", Scalar (2 * n + 1))]].
Example C10_ex :
  let out := shuffling 2 ["complete_frac"] (fun _ => @rev _) (map ex_b [0; 1; 2; 3; 4]) in
  snd out = Ok tt /\
  map (map (fun s => dget s "data")) (fst out) = map (fun n => [Some (Frames [n; n]); Some (Frames [n])]) [1; 0; 3; 2; 4] /\
  key_values "complete_frac" (fst out) = map (fun n => Some (Scalar n)) (seq 0 10).
Proof. vm_compute. repeat split. Qed.

(** C10, finding: an empty stream (e.g. everything filtered out) is not passed on as an empty stream, but raises
    AssertionError, because the end of the stream is only noticed after an item has been yielded. *)
Theorem C10_empty_stream_refuted : forall X buffer_size mono_keys (shuffle : nat -> list (list (seqd X)) -> list (list (seqd X))),
  (forall n buf, Permutation (shuffle n buf) buf) -> 0 < buffer_size ->
  shuffling buffer_size mono_keys shuffle [] = ([], Err AssertionError).
Proof. exact (fun X bs mk sh H => shuffling_empty mk sh H bs). Qed.
Print Assumptions C10_empty_stream_refuted.

(** C11: for every non-empty stream laplace ordering ends without error; each window of [num_seqs_per_bin] sequences is
    a permutation of the window of the input, where sequences of the same length keep their order; the windows
    are alternately sorted ascending and descending; and the progress values come in the input order. *)
Theorem C11_laplace_ordering : forall P num_seqs_per_bin (data : list (lseq P)),
  0 < num_seqs_per_bin -> data <> [] ->
  exists out ws ws', laplace_ordering num_seqs_per_bin data = (out, Ok tt) /\
    windows num_seqs_per_bin data ws /\ windows num_seqs_per_bin out ws' /\
    Forall2 (fun w w' => Permutation (map body w') (map body w) /\
      forall n, filter (fun p => (fst p =? n)%Z) (map body w') = filter (fun p => (fst p =? n)%Z) (map body w)) ws ws' /\
    alternating false ws' /\ map ls_frac out = map ls_frac data.
Proof. exact (@laplace_spec). Qed.
Print Assumptions C11_laplace_ordering.

Example C11_ex :
  laplace_ordering 3 (map (fun '(i, n) => LSeq n i n) [(0, 5); (1, 2); (2, 7); (3, 1); (4, 9); (5, 4); (6, 3)]%Z)
  = (map (fun '(i, n) => LSeq n i n) [(0, 2); (1, 5); (2, 7); (3, 9); (4, 4); (5, 1); (6, 3)]%Z, Ok tt).
Proof. vm_compute. reflexivity. Qed.

(** C11, finding: as for C10, an empty stream raises AssertionError. *)
Theorem C11_empty_stream_refuted : forall P num_seqs_per_bin, 0 < num_seqs_per_bin ->
  laplace_ordering (P := P) num_seqs_per_bin [] = ([], Err AssertionError).
Proof. exact (@laplace_empty). Qed.
Print Assumptions C11_empty_stream_refuted.
