(** Property C17: killed copies and the file cache. *)
From Verif Require Import Base FileCopyModel FileCopySpec FileCopyProofs.

(** C17: for every history of requests, kills and errors at any point of them, and cleanups by others: as long as nobody writes the source, the
    cached file is absent or has the full content of the source. *)
Theorem C17_never_truncated : forall es src mtime now c,
  source_unchanged es -> w_dst (run es (start src mtime now)) = Some c -> c = src.
Proof.
  intros es src mtime now c Hs Hc. rewrite (never_good es src mtime now Hs c Hc). now apply (src_run es (start src mtime now)).
Qed.
Print Assumptions C17_never_truncated.

(** C17: for every history that also includes writes of the source (each of them with a newer mtime): whenever a request for the file returns,
    and the source was not written during this request, then the cached file has exactly the content of the source now. Whatever
    happened before: interrupted copies, older versions, a source that was written during an earlier copy. *)
Theorem C17_request_gives_the_source : forall before during src mtime now c,
  let w := run before (start src mtime now) in
  let w' := run (before ++ Request :: during) (start src mtime now) in
  (w_pc w = Idle \/ w_pc w = Returned \/ exists e, w_pc w = Raised e) ->
  source_unchanged during ->
  w_pc w' = Returned -> w_dst w' = Some c -> c = w_src w'.
Proof.
  cbv zeta. intros before during src mtime now c Hp Hs Hr. apply request_good; auto.
  destruct Hp as [-> | [-> | (e & ->)]]; reflexivity.
Qed.
Print Assumptions C17_request_gives_the_source.

(** C17: and after any such history a new request succeeds, in a bounded number of operations, when a left-over of a killed copy is
    old enough and nothing else goes wrong. *)
Theorem C17_request_succeeds_after_crash : forall before es src mtime now,
  let w := run before (start src mtime now) in
  (w_pc w = Idle \/ w_pc w = Returned \/ exists e, w_pc w = Raised e) ->
  (forall t m, w_tmp w = Some (t, m) -> (16000000000 < w_now w - m)%Z) ->
  alone es -> 20 + length (w_src w) <= length es ->
  w_pc (run (Request :: es) w) = Returned /\ w_dst (run (Request :: es) w) = Some (w_src w).
Proof.
  cbv zeta. intros before es src mtime now Hp Ht. apply recovers; [|exact Ht].
  destruct Hp as [-> | [-> | (e & ->)]]; reflexivity.
Qed.
Print Assumptions C17_request_succeeds_after_crash.

(** Killed in the middle of the copy; then the source is written during the second copy (so that the cached file is a mixture);
    the third request notices. *)
Definition ex_history : list event :=
  [Request] ++ repeat (Act 1) 11 ++ [Kill; Tick 17000000000] ++
  [Request] ++ repeat (Act 1) 10 ++ [WriteSrc [9; 8; 7; 6; 5] 1] ++ repeat (Act 1) 20.
Example C17_ex :
  let w := run ex_history (start [1; 2; 3; 4; 5] 1000 5000) in
  let w' := run (ex_history ++ Request :: repeat (Act 1) 25) (start [1; 2; 3; 4; 5] 1000 5000) in
  (w_tmp (run (firstn 13 ex_history) (start [1; 2; 3; 4; 5] 1000 5000)) = Some ([1; 2; 3; 4; 0; 0], 5000%Z)) /\
  (w_pc w, w_dst w, w_info w) = (Returned, Some [1; 2; 7; 6; 5], Some (Some 1000%Z)) /\
  (w_pc w', w_dst w', w_info w', w_tmp w') = (Returned, Some [9; 8; 7; 6; 5], Some (Some 1001%Z), None).
Proof. vm_compute. repeat split; reflexivity. Qed.

(** C17, finding: the retries of [get_file] after "no space left on device" never help. Even when a later try has copied the file, the first
    error is raised in the end. *)
Theorem C17_retry_refuted :
  (forall num_tries results, results 0%nat = Some ENOSPC -> get_file_tries num_tries results 0 false = Ok tt -> num_tries = 0%nat) /\
  ~ (forall num_tries results i, i < num_tries -> (forall j, j < i -> results j = Some ENOSPC) -> results i = None ->
     get_file_tries num_tries results 0 false = Ok tt).
Proof.
  split.
  - intros [|n] results H0 H; [reflexivity|]. cbn in H. rewrite H0 in H. now apply tries_last in H.
  - intros H. specialize (H 3 (fun j => match j with 0 => Some ENOSPC | _ => None end) 1 ltac:(lia)).
    cbn in H. assert (E : Err OSError = Ok tt); [|discriminate]. apply H; [|reflexivity]. intros j Hj. replace j with 0 by lia. reflexivity.
Qed.
Print Assumptions C17_retry_refuted.

(** C17, finding: and if the disk was full while the copy was preallocated, then the try one second later already fails with an AssertionError
    about the left-over copy. *)
Theorem C17_retry_after_full_disk_refuted :
  ~ (forall before es src mtime now, let w := run before (start src mtime now) in
     (exists e, w_pc w = Raised e) -> alone es -> 20 + length (w_src w) <= length es -> w_pc (run (Tick 1000000000 :: Request :: es) w) = Returned).
Proof.
  intros H. specialize (H ([Request] ++ repeat (Act 0) 8 ++ [Fail OSError]) (repeat (Act 0) 25) [1; 2; 3] 1000%Z 5000%Z). cbv zeta in H.
  assert (E : Raised AssertionError = Returned); [|discriminate E].
  apply H; [eexists; reflexivity| |cbn; lia]. intros e He. apply repeat_spec in He. eauto.
Qed.
Print Assumptions C17_retry_after_full_disk_refuted.

(** C17: what [get_file] does with the results of copying: a copy that works at once is returned, any error other than a full disk is raised, and
    if the disk is full each time, this is raised. *)
Theorem C17_get_file : forall num_tries results, 0 < num_tries ->
  (results 0%nat = None -> get_file_tries num_tries results 0 false = Ok tt) /\
  (forall i e, i < num_tries -> (forall j, j < i -> results j = Some ENOSPC) -> results i = Some (Other e) -> get_file_tries num_tries results 0 false = Err e) /\
  ((forall j, j < num_tries -> results j = Some ENOSPC) -> get_file_tries num_tries results 0 false = Err OSError).
Proof.
  intros n results Hn. split; [|split].
  - intros H. destruct n as [|n]; [lia|]. cbn. now rewrite H.
  - intros i e Hi Hj He. apply (tries_other n results i e 0 false); [lia| |exact He]. intros j Hj1. apply Hj. lia.
  - intros H. destruct n as [|n]; [lia|]. cbn. rewrite (H 0) by lia. apply tries_full. intros j Hj. apply H. lia.
Qed.
Print Assumptions C17_get_file.
