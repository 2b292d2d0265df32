(** The two threads of SprintDatasetBase. *)
From Verif Require Import Base SprintModel SprintSpec SprintProofs.
Local Open Scope nat_scope.

(** One epoch, all schedules: no thread fails; as long as the train thread does not have all the sequences of the epoch,
    in the order in which Sprint has added them, some thread can go on; and there are no infinite runs. *)
Theorem C117_one_epoch : forall (D : Type) (epoch : list D) (s : state D), reachable [epoch] (step [epoch]) s ->
  ~ failed s /\ (complete [epoch] s \/ exists s', step [epoch] s s').
Proof.
  intros D ep s (n & H). apply one_run in H; [|easy]. assert (I : inv [ep] s) by (eapply inv_run, H; now apply inv_start).
  split; [eapply inv_ok, I|]. destruct (inv_progress _ _ I) as [H1|(s' & [[H1 _]|[H1 _]])]; [now left|right; exists s'; now left|right; exists s'; now right].
Qed.
Print Assumptions C117_one_epoch.

Theorem C117_one_epoch_ends : forall (D : Type) (epoch : list D), exists b, forall n s, run (step [epoch]) (start [epoch]) n s -> n <= b.
Proof.
  intros D ep. exists (mu [ep] (start [ep])). intros n s H. apply one_run in H; [|easy].
  apply mu_run in H; [lia|now apply inv_start].
Qed.
Print Assumptions C117_one_epoch_ends.

(** Several epochs: the same for the schedules in which no thread is early at the start of an epoch. *)
Theorem C117_epochs : forall (D : Type) (epochs : list (list D)) (s : state D), epochs <> [] -> reachable epochs (step_in_time epochs) s ->
  ~ failed s /\ (complete epochs s \/ exists s', step_in_time epochs s s').
Proof.
  intros D eps s Hne (n & H). assert (I : inv eps s) by (eapply inv_run, H; now apply inv_start).
  split; [eapply inv_ok, I|now apply inv_progress].
Qed.
Print Assumptions C117_epochs.

Theorem C117_epochs_end : forall (D : Type) (epochs : list (list D)), epochs <> [] ->
  exists b, forall n s, run (step_in_time epochs) (start epochs) n s -> n <= b.
Proof.
  intros D eps Hne. exists (mu eps (start eps)). intros n s H. apply mu_run in H; [lia|now apply inv_start].
Qed.
Print Assumptions C117_epochs_end.

(** What the train thread has got so far is a beginning of what Sprint adds: in all runs of that kind. *)
Theorem C117_prefix : forall (D : Type) (epochs : list (list D)) (s : state D), epochs <> [] -> reachable epochs (step_in_time epochs) s ->
  out s = firstn (length (out s)) epochs /\
  (cons_ s = CDone \/ exists l more, nth_error epochs (length (out s)) = Some l /\ l = cur s ++ more).
Proof.
  intros D eps s Hne (n & H). assert (I : inv eps s) by (eapply inv_run, H; now apply inv_start). now apply inv_prefix.
Qed.
Print Assumptions C117_prefix.

(** Memory, in all schedules: Sprint does not get far ahead of the train thread. *)
Theorem C117_memory : forall (D : Type) (epochs : list (list D)) (s : state D), reachable epochs (step epochs) s -> not_far_ahead s.
Proof. intros D eps s (n & H). apply near_run in H; [exact H|constructor]. Qed.
Print Assumptions C117_memory.

(** Findings.  With two epochs this is not true of all schedules.  The train thread calls init_seq_order(2) and goes on before
    the Sprint thread wakes up; it sees the state of the first epoch, and fails in load_seqs... *)
Theorem C117_early_train_refuted : exists (epochs : list (list nat)) (s : state nat), epochs <> [] /\
  reachable epochs (step epochs) s /\ cons_ s = CErr AssertionError.
Proof.
  pose (eps := [[1; 2]; [3; 4]]).
  pose (sch := [true; true; true; true; false; false; false; false; false; false; false; false; false; false; false]).
  exists eps. eexists. split; [discriminate|]. split; [apply (exec_reach eps sch); vm_compute; reflexivity|reflexivity].
Qed.
Print Assumptions C117_early_train_refuted.

(** ...or, if the first epoch has one sequence, it gets the sequence of the first epoch again, and both threads end as if all was well. *)
Theorem C117_old_epoch_refuted : exists (epochs : list (list nat)) (s : state nat), epochs <> [] /\
  reachable epochs (step epochs) s /\ cons_ s = CDone /\ prod s = PDone /\ out s <> epochs.
Proof.
  pose (eps := [[1]; [2]]).
  pose (sch := [true; true; true; false; false; false; false; false; false; false; false; false; false; true; true; true; true]).
  exists eps. eexists. split; [discriminate|]. split; [apply (exec_reach eps sch); vm_compute; reflexivity|]. repeat split. discriminate.
Qed.
Print Assumptions C117_old_epoch_refuted.

(** The Sprint thread fails if it comes to its second epoch before the train thread has called init_seq_order(1). *)
Theorem C117_early_sprint_refuted : exists (epochs : list (list nat)) (s : state nat), epochs <> [] /\
  reachable epochs (step epochs) s /\ prod s = PErr TypeError.
Proof.
  pose (eps := [[1; 2]; [3; 4]]). pose (sch := [true; true; true; true; true]).
  exists eps. eexists. split; [discriminate|]. split; [apply (exec_reach eps sch); vm_compute; reflexivity|reflexivity].
Qed.
Print Assumptions C117_early_sprint_refuted.

(** A run with both threads in turn, to its end. *)
Example C117_ex : exists n s, run (step [[10; 20; 30]]) (start [[10; 20; 30]]) n s /\ complete [[10; 20; 30]] s.
Proof.
  pose (sch := [true; false; true; false; true; false; true; false; true; false; false; false; false; false; false; false]).
  exists (length sch). eexists. split; [apply (exec_run [[10; 20; 30]] sch); vm_compute; reflexivity|]. repeat split.
Qed.
(** the Sprint thread goes to sleep when it is 200 sequences ahead *)
Example C117_ex_wait : exists s, reachable [seq 0 300] (step [seq 0 300]) s /\ step_p s = None /\ length (added (ds_ s)) = 200.
Proof.
  pose (sch := repeat true 202).
  eexists. split; [apply (exec_reach [seq 0 300] sch); vm_compute; reflexivity|]. split; reflexivity.
Qed.
