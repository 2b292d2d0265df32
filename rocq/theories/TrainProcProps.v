(** C116: the manager which restarts the training process. *)
From Verif Require Import Base CkptModel TrainProcModel TrainProcSpec TrainProcProofs.
Local Open Scope Z_scope.

(** Whatever the training processes do to the files, the manager comes to an end. *)
Theorem C116_terminates : forall child final f fuel, (Z.to_nat final + 1 < fuel)%nat ->
  main_proc_manager child final fuel f <> Err OutOfFuel.
Proof. intros. now apply main_terminates. Qed.
Print Assumptions C116_terminates.

(** There are at most as many starts as epochs (but one try in any case). *)
Theorem C116_bound : forall child final f fuel o, main_proc_manager child final fuel f = Ok o ->
  Z.of_nat (num_starts o) <= Z.max 1 final.
Proof. intros * H. apply main_ok in H. tauto. Qed.
Print Assumptions C116_bound.

(** A process is started only if the training is not finished, and only if the process before made progress. *)
Theorem C116_starts : forall child final f fuel o, main_proc_manager child final fuel f = Ok o ->
  (forall n, n < num_starts o -> unfinished child final f n)%nat /\
  (forall n, S n < num_starts o -> progress child final f n)%nat.
Proof. intros * H. apply main_ok in H. tauto. Qed.
Print Assumptions C116_starts.

(** At the end the training is finished, or the last process made no progress. *)
Theorem C116_end : forall child final f fuel o, main_proc_manager child final fuel f = Ok o ->
  files_after o = after_runs child f (num_starts o) /\
  (~ unfinished child final f (num_starts o) \/ exists m, num_starts o = S m /\ ~ progress child final f m).
Proof.
  intros * H. apply main_ok in H. destruct H as (_ & H1 & _ & _ & _ & H2). split; [exact H1|].
  destruct (num_starts o) as [|m]; [tauto|]. destruct H2 as [H2|H2]; [|now left]. right. now exists m.
Qed.
Print Assumptions C116_end.

(** The exit code is that of the last process, and 0 if there was nothing to do. *)
Theorem C116_exit : forall child final f fuel o, main_proc_manager child final fuel f = Ok o ->
  match num_starts o with O => exit_code o = 0 /\ is_newest f final final | S m => exit_code o = code_of child f m end.
Proof.
  intros * H. pose proof (main_ok _ _ _ _ _ H) as (_ & _ & _ & _ & H1 & _). destruct (num_starts o) as [|m].
  - destruct H1 as [H1 H2]. split; [easy|]. rewrite unfinished_iff in H2. cbn in H2.
    destruct (Z.eq_dec (newest f final) final) as [E|]; [|tauto]. rewrite <- E at 2. apply newest_is.
  - tauto.
Qed.
Print Assumptions C116_exit.

(** If the training is finished already, no process is started. *)
Theorem C116_finished : forall child final f fuel, is_newest f final final ->
  main_proc_manager child final (S fuel) f = Ok (mkOutcome 0 0 f).
Proof.
  intros * H. unfold main_proc_manager. cbn [loop]. rewrite (newest_eq _ _ _ H), Z.eqb_refl. reflexivity.
Qed.
Print Assumptions C116_finished.

(** The only error is that a process lost the newest epoch. *)
Theorem C116_error : forall child final f fuel e, (Z.to_nat final + 1 < fuel)%nat -> main_proc_manager child final fuel f = Err e ->
  e = AssertionError /\ exists n, ~ keeps child final f n.
Proof.
  intros * Hf H. pose proof (main_terminates child final f fuel Hf) as Ht.
  destruct (main_err _ _ _ _ _ H) as [->|(-> & n & _ & _ & Hn)]; [easy|]. split; [easy|]. now exists n.
Qed.
Print Assumptions C116_error.

(** When a process becomes a manager *)
Theorem C116_manager : forall c, becomes_manager c = true <->
  use_manager c = true /\ managed c = false /\ task_train c = true /\ start_auto c = true /\ use_horovod c = false /\ torch_distributed c = false.
Proof. intros [u m t s h d]. unfold becomes_manager. cbn. destruct u, m, t, s, h, d; cbn; intuition discriminate. Qed.
Print Assumptions C116_manager.

(** The managed process does not become a manager. *)
Theorem C116_nested : forall c, becomes_manager c = true -> becomes_manager (child_config c) = false.
Proof. intros c _. unfold becomes_manager. cbn. now destruct (use_manager c). Qed.
Print Assumptions C116_nested.

(** The exit code does not tell whether the training is finished, in neither direction. *)
Theorem C116_code_refuted :
  ~ (forall child final f fuel o, main_proc_manager child final fuel f = Ok o -> exit_code o = 0 -> is_newest (files_after o) final final) /\
  ~ (forall child final f fuel o, main_proc_manager child final fuel f = Ok o -> is_newest (files_after o) final final -> exit_code o = 0).
Proof.
  split; intros H.
  - specialize (H (fun _ f => (f, 0)) 3 (mk_files [] []) 3%nat _ eq_refl eq_refl). apply newest_eq in H. discriminate.
  - specialize (H (fun _ f => (mk_files [3] [3], 1)) 3 (mk_files [] []) 3%nat _ eq_refl).
    cbn in H. assert (1 = 0) as E; [|discriminate]. apply H. apply (newest_is (mk_files [3] [3]) 3).
Qed.
Print Assumptions C116_code_refuted.

(** examples: a process which crashes after two epochs *)
Definition crashing (n : nat) (f : files) : files * Z :=
  let e := newest f 5 in
  let new := if e + 2 <=? 5 then [e + 1; e + 2] else [e + 1] in
  (mk_files (f_model f ++ new) (f_opt f ++ new), if e + 2 <? 5 then 1 else 0).
Example ex_crash : main_proc_manager crashing 5 7 (mk_files [] []) = Ok (mkOutcome 0 3 (mk_files [1; 2; 3; 4; 5] [1; 2; 3; 4; 5])).
Proof. reflexivity. Qed.
(** no progress: stop with the exit code of the process *)
Example ex_stuck : main_proc_manager (fun _ f => (f, 139)) 5 7 (mk_files [1] [1]) = Ok (mkOutcome 139 1 (mk_files [1] [1])).
Proof. reflexivity. Qed.
Example ex_finished : main_proc_manager (fun _ f => (f, 139)) 2 7 (mk_files [1; 2] [2]) = Ok (mkOutcome 0 0 (mk_files [1; 2] [2])).
Proof. reflexivity. Qed.
(** a model without optimizer state does not count *)
Example ex_no_opt : main_proc_manager (fun _ f => (f, 139)) 2 7 (mk_files [1; 2] [1]) = Ok (mkOutcome 139 1 (mk_files [1; 2] [1])).
Proof. reflexivity. Qed.
Example ex_lost : main_proc_manager (fun _ _ => (mk_files [] [], 1)) 2 7 (mk_files [1] [1]) = Err AssertionError.
Proof. reflexivity. Qed.
Example ex_manager : becomes_manager (mkMConfig true false true true false false) = true.
Proof. reflexivity. Qed.
