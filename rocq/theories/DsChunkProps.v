From Coq Require Import String.
From Verif Require Import Base ListLemmas DsChunkModel DsChunkSpec DsChunkProofs.
Local Open Scope nat_scope. Local Open Scope list_scope. Local Open Scope Z_scope.
Local Notation length := List.length.

(** C40: without minimal chunk size, and when no stream is treated as a short extra stream (length 0 or 1), every frame of every stream is in some chunk, whenever chunking does not raise an exception and the steps are not larger than the sizes. The streams may have different lengths, steps and sizes. *)
Theorem C40_covers_all K d len size step minc cs :
  In d K -> (forall k, In k K -> 0 < step k <= size k /\ minc k = 0 /\ (1 < len k \/ step k = step d /\ len k = len d)) ->
  iterate_seq K d len size step minc = Ok cs ->
  forall k t, In k K -> 0 <= t < len k -> exists c, In c cs /\ in_chunk c k t.
Proof.
  intros Hd Hk Hc k t Hin Ht. destruct (Hk d Hd) as (Hsd&Hmd&_). destruct (iterate_spec K d len size step minc Hd (proj1 Hsd) cs) as (full&n&Hf&->&N1&_&N3); [lia|exact Hc|].
  apply (covered K d len size step minc full n Hd Hk Hf N1 N3 k t Hin Ht).
Qed.
Print Assumptions C40_covers_all.

(** C40: chunk [j] of the stream [k] starts at [j * step k] and ends [size k] later or at the end of the stream, for all streams which are not treated as short extra streams. *)
Theorem C40_chunk_positions K d len size step minc cs :
  In d K -> 0 < step d -> 0 <= minc d -> (forall k, In k K -> 1 < len k \/ step k = step d /\ len k = len d) ->
  iterate_seq K d len size step minc = Ok cs ->
  forall j c, nth_error cs j = Some c -> c = map (fun k => (k, (Z.of_nat j * step k, Z.min (Z.of_nat j * step k + size k) (len k)))) K.
Proof. apply chunk_positions. Qed.
Print Assumptions C40_chunk_positions.

(** C40: if all streams have the same length and step, chunking always succeeds; chunk [j] starts at [j * step] and ends [size] later or at the end of the sequence; a frame can only be missing if the rest of the sequence from it on is not longer than the minimal chunk size. *)
Theorem C40_same_lengths K d len size step minc :
  In d K -> (forall k, In k K -> 0 < step k <= size k /\ 0 <= minc k /\ step k = step d /\ len k = len d) ->
  exists cs, iterate_seq K d len size step minc = Ok cs /\
    (forall j c, nth_error cs j = Some c -> c = map (fun k => (k, (Z.of_nat j * step d, Z.min (Z.of_nat j * step d + size k) (len d)))) K) /\
    (forall k t, In k K -> 0 <= t < len d -> (exists c, In c cs /\ in_chunk c k t) \/ exists k', In k' K /\ len d - t <= minc k').
Proof. apply same_lengths. Qed.
Print Assumptions C40_same_lengths.

(** /repo/tests/test_Dataset.py, test_iterate_seqs_chunking_1 (two streams of 11 frames, chunks of 10 every 5); then two streams of different lengths with their own sizes and steps. *)
Example C40_test_chunking_1 :
  iterate_seq ["data"; "classes"]%string "data" (fun _ => 11) (fun _ => 10) (fun _ => 5) (fun _ => 0)
  = Ok [[("data", (0, 10)); ("classes", (0, 10))]; [("data", (5, 11)); ("classes", (5, 11))]; [("data", (10, 11)); ("classes", (10, 11))]]%string.
Proof. reflexivity. Qed.
Definition by_key (a b : Z) (k : string) : Z := if String.eqb k "data" then a else b.
Example C40_different_steps :
  iterate_seq ["data"; "classes"]%string "data" (by_key 23 12) (by_key 12 6) (by_key 6 3) (fun _ => 0)
  = Ok [[("data", (0, 12)); ("classes", (0, 6))]; [("data", (6, 18)); ("classes", (3, 9))]; [("data", (12, 23)); ("classes", (6, 12))]; [("data", (18, 23)); ("classes", (9, 12))]]%string.
Proof. reflexivity. Qed.

(** C40, finding: a stream of length 0 or 1 should be given completely with every chunk of the others (comment at lines 1187-1188). But then there is only one chunk, and the rest of the sequence is lost. *)
Theorem C40_short_stream_refuted :
  ~ (forall K d len size step minc cs, In d K -> (forall k, In k K -> 0 < step k <= size k /\ minc k = 0) -> (forall k, In k K -> len k <= 1 \/ step k = step d /\ len k = len d) ->
     iterate_seq K d len size step minc = Ok cs -> forall k t, In k K -> 0 <= t < len k -> exists c, In c cs /\ in_chunk c k t).
Proof.
  intros H. destruct (H ["data"; "speaker"]%string "data"%string (by_key 20 1) (fun _ => 5) (fun _ => 5) (fun _ => 0) [[("data", (0, 5)); ("speaker", (0, 1))]]%string) with (k := "data"%string) (t := 10) as (c&[<-|[]]&s&e&[Hc|[Hc|[]]]&Hr).
  - now left.
  - intros k _. lia.
  - intros k [<-|[<-|[]]]; cbn; lia.
  - reflexivity.
  - now left.
  - cbn. lia.
  - injection Hc as <- <-. lia.
  - discriminate.
Qed.
Print Assumptions C40_short_stream_refuted.

(** C40, finding: with a minimal chunk size, the check that all streams have the same number of chunks is not exact: it can pass while the chunks of one stream stop too early, and more than the minimal chunk size is lost. *)
Theorem C40_min_chunk_refuted :
  ~ (forall K d len size step minc cs, In d K -> (forall k, In k K -> 0 < step k <= size k /\ 0 <= minc k /\ 1 < len k) ->
     iterate_seq K d len size step minc = Ok cs -> forall k t, In k K -> 0 <= t < len k - minc k -> exists c, In c cs /\ in_chunk c k t).
Proof.
  intros H. destruct (H ["data"; "classes"]%string "data"%string (by_key 12 25) (by_key 5 10) (by_key 5 10) (by_key 2 2) [[("data", (0, 5)); ("classes", (0, 10))]; [("data", (5, 10)); ("classes", (10, 20))]]%string) with (k := "classes"%string) (t := 22) as (c&[<-|[<-|[]]]&s&e&[Hc|[Hc|[]]]&Hr).
  - now left.
  - intros k [<-|[<-|[]]]; cbn; lia.
  - reflexivity.
  - right. now left.
  - cbn. lia.
  - discriminate.
  - injection Hc as <- <-. lia.
  - discriminate.
  - injection Hc as <- <-. lia.
Qed.
Print Assumptions C40_min_chunk_refuted.
