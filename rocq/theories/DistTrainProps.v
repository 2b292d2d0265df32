(** Distributed training of the PyTorch engine: no deadlock, replicas, averaged parameters. *)
From Verif Require Import Base ListLemmas DistTrainModel DistTrainSpec DistTrainProofs.
From Coq Require Import ZArith Lia QArith QArith.Qcanon.
Local Open Scope nat_scope.

(** ** C61 *)
(** Whatever the order in which the processes run: as long as they accumulate gradients over the same steps, the epoch
    including the evaluation never gets stuck before all processes are done. *)
Theorem C61_no_deadlock : forall P G B (cfg : config P G B) xs s,
  agree cfg -> Forall (fun n => 0 < n) (c_eval cfg) -> xs <> [] -> 0 < batches xs ->
  steps cfg (start_epoch xs) s -> Forall finished s \/ exists s', step cfg s s'.
Proof. intros P G B cfg xs s Ha He Hx Hb H. eapply epoch_progress; eassumption. Qed.
Print Assumptions C61_no_deadlock.

Theorem C61_terminates : forall P G B (cfg : config P G B) xs,
  agree cfg -> Forall (fun n => 0 < n) (c_eval cfg) -> xs <> [] -> 0 < batches xs -> no_endless_run cfg (start_epoch xs).
Proof. intros P G B cfg xs Ha He Hx Hb. apply acc_no_run. apply epoch_terminates; assumption. Qed.
Print Assumptions C61_terminates.

(** All processes do the same number of steps, the number of batches of the process that has the fewest. *)
Theorem C61_same_steps : forall P G B (cfg : config P G B) xs s,
  agree cfg -> Forall (fun n => 0 < n) (c_eval cfg) -> xs <> [] -> 0 < batches xs ->
  steps cfg (start_epoch xs) s -> Forall finished s -> length s = length xs /\ Forall (fun w => w_step w = batches xs) s.
Proof.
  intros P G B cfg xs s Ha He Hx Hb H Hf. rewrite (epoch_result cfg Ha He xs Hx Hb s H Hf). split; [apply result_length|]. apply result_steps; assumption.
Qed.
Print Assumptions C61_same_steps.

(** The outcome does not depend on the order in which the processes run. *)
Theorem C61_deterministic : forall P G B (cfg : config P G B) xs s s',
  agree cfg -> Forall (fun n => 0 < n) (c_eval cfg) -> xs <> [] -> 0 < batches xs ->
  steps cfg (start_epoch xs) s -> Forall finished s -> steps cfg (start_epoch xs) s' -> Forall finished s' -> s = s'.
Proof.
  intros P G B cfg xs s s' Ha He Hx Hb H Hf H' Hf'. rewrite (epoch_result cfg Ha He xs Hx Hb s H Hf). symmetry. apply epoch_result; assumption.
Qed.
Print Assumptions C61_deterministic.

(** If one process has no batch at all, no process finishes the epoch: all of them raise an exception. *)
Theorem C61_no_data : forall P G B (cfg : config P G B) xs s,
  xs <> [] -> batches xs = 0 -> steps cfg (start_epoch xs) s ->
  Forall (fun w => ~ finished w) s /\ (stuck cfg s -> Forall (fun w => w_pc w = Failed) s).
Proof.
  intros P G B cfg xs s Hx Hb H. split; [eapply empty_never_finished; eassumption|]. intros Hs. eapply empty_failed; eassumption.
Qed.
Print Assumptions C61_no_data.

Definition toy (reduce : reduce_type) (accum : nat -> nat -> nat) (noise : nat -> Z) (evals : list nat) : config Z Z Z :=
  {| c_reduce := reduce; c_eager := false; c_accum := accum; c_grad := fun p b => (b - p)%Z; c_gzero := 0%Z; c_gadd := Z.add;
     c_gavg := fun l => (fold_right Z.add 0 l / Z.of_nat (length l))%Z; c_pavg := fun l => (fold_right Z.add 0 l / Z.of_nat (length l))%Z;
     c_update := fun i _ p g => (p + g + noise i)%Z; c_eval := evals |}.

(** The number of steps to accumulate may be a function of the position in the epoch, which differs between the processes. *)
Theorem C61_accum_refuted : ~ (forall P G B (cfg : config P G B) xs s,
  Forall (fun n => 0 < n) (c_eval cfg) -> xs <> [] -> 0 < batches xs ->
  steps cfg (start_epoch xs) s -> Forall finished s \/ exists s', step cfg s s').
Proof.
  intros H. pose (cfg := toy RGrad (fun i _ => S i) (fun _ => 0%Z) []).
  set (ks := [Some 0; Some 1; None; Some 0; Some 1; Some 1; Some 1; Some 1]).
  destruct (sched cfg ks (start_epoch [([4; 5]%Z, (0%Z, 0%Z)); ([6; 7]%Z, (0%Z, 0%Z))])) as [s|] eqn:E; [|discriminate E].
  destruct (H Z Z Z cfg [([4; 5]%Z, (0%Z, 0%Z)); ([6; 7]%Z, (0%Z, 0%Z))] s) as [Hf|(s' & Hs)]; [constructor|discriminate|cbn; lia|eapply sched_steps; exact E| |].
  - vm_compute in E. injection E as <-. inversion Hf as [|? ? H1 _]; subst. discriminate H1.
  - revert Hs. apply stuck_intro; vm_compute in E; injection E as <-; reflexivity.
Qed.
Print Assumptions C61_accum_refuted.

(** An evaluation dataset without data: rank 0 raises an exception, the other processes wait forever. *)
Theorem C61_eval_refuted : ~ (forall P G B (cfg : config P G B) xs s,
  agree cfg -> xs <> [] -> 0 < batches xs ->
  steps cfg (start_epoch xs) s -> (Forall finished s \/ Forall (fun w => w_pc w = Failed) s) \/ exists s', step cfg s s').
Proof.
  intros H. pose (cfg := toy RGrad (fun _ _ => 1) (fun _ => 0%Z) [0]).
  set (ks := [Some 0; Some 1; None; Some 0; Some 1; None; Some 0; Some 1; Some 0; Some 1; Some 0; Some 1; None; Some 0; Some 0; Some 1]).
  destruct (sched cfg ks (start_epoch [([4]%Z, (0%Z, 0%Z)); ([6]%Z, (0%Z, 0%Z))])) as [s|] eqn:E; [|discriminate E].
  destruct (H Z Z Z cfg [([4]%Z, (0%Z, 0%Z)); ([6]%Z, (0%Z, 0%Z))] s) as [[Hf|Hf]|(s' & Hs)]; [intros i j r; reflexivity|discriminate|cbn; lia|eapply sched_steps; exact E| | |].
  - vm_compute in E. injection E as <-. inversion Hf as [|? ? H1 _]; subst. discriminate H1.
  - vm_compute in E. injection E as <-. inversion Hf as [|? ? _ Hf']; subst. inversion Hf' as [|? ? H1 _]; subst. discriminate H1.
  - revert Hs. apply stuck_intro; vm_compute in E; injection E as <-; reflexivity.
Qed.
Print Assumptions C61_eval_refuted.

(** ** C62 *)
(** With averaged gradients the processes together compute what a single process with one set of parameters computes. *)
Theorem C62_like_single : forall P G B (cfg : config P G B) xs p s,
  agree cfg -> Forall (fun n => 0 < n) (c_eval cfg) -> xs <> [] -> 0 < batches xs ->
  c_reduce cfg = RGrad -> (forall i j r q g, c_update cfg i r q g = c_update cfg j r q g) -> c_eager cfg = false \/ linear_mean cfg ->
  Forall (fun x => fst (snd x) = p) xs ->
  steps cfg (start_epoch xs) s -> Forall finished s ->
  Forall (fun w => w_param w = single cfg p (map (fun _ => c_gzero cfg) xs) 0 0 (rows (batches xs) (map fst xs))) s.
Proof.
  intros P G B cfg xs p s Ha He Hx Hb Hred Hupd Hea Hp H Hf. rewrite (epoch_result cfg Ha He xs Hx Hb s H Hf).
  apply (Forall_map w_param (fun q => q = _)). rewrite result_params. apply Forall_map. rewrite <- start_todo, <- (start_grads cfg).
  apply (averaged cfg Ha Hred Hupd Hea (batches xs) 0 true 0); [apply start_uniform; exact Hx|apply start_todo_len|].
  clear -Hp. unfold start_epoch. generalize 0. induction Hp as [|x xs Hx Hp IH]; intros a; [constructor|]. cbn [start_from]. constructor; [exact Hx|apply IH].
Qed.
Print Assumptions C62_like_single.

(** The usual mean commutes with the accumulation. *)
Example C62_mean : forall (cfg : config Qc Qc Qc), c_gadd cfg = Qcplus ->
  c_gavg cfg = (fun l => Qcdiv (fold_right Qcplus (Q2Qc 0) l) (Q2Qc (inject_Z (Z.of_nat (length l))))) -> linear_mean cfg.
Proof.
  intros cfg H1 H2. split.
  - intros gs hs Hl. rewrite H1, H2. rewrite map_length, combine_length, <- Hl, Nat.min_id.
    assert (E : fold_right Qcplus (Q2Qc 0) (map (fun '(g, h) => Qcplus g h) (combine gs hs)) = Qcplus (fold_right Qcplus (Q2Qc 0) gs) (fold_right Qcplus (Q2Qc 0) hs)).
    { clear -Hl. revert hs Hl. induction gs as [|g gs IH]; intros [|h hs] Hl; try discriminate Hl; [cbn; ring|]. cbn [combine map fold_right]. rewrite IH by (injection Hl as Hl; exact Hl). ring. }
    rewrite E. unfold Qcdiv. ring.
  - intros a n Hn. rewrite H2. rewrite repeat_length.
    assert (E : fold_right Qcplus (Q2Qc 0) (repeat a n) = Qcmult a (Q2Qc (inject_Z (Z.of_nat n)))).
    { clear. induction n as [|n IH]; [cbn [repeat fold_right]; change (Q2Qc (inject_Z (Z.of_nat 0))) with (Q2Qc 0); ring|]. cbn [repeat fold_right]. rewrite IH.
      replace (Q2Qc (inject_Z (Z.of_nat (S n)))) with (Qcplus (Q2Qc 1) (Q2Qc (inject_Z (Z.of_nat n)))); [change (Q2Qc 1) with 1%Qc; ring|].
      apply Qc_is_canon. cbn [this Qcplus Q2Qc]. rewrite !Qred_correct. rewrite Nat2Z.inj_succ. unfold Z.succ. rewrite inject_Z_plus. ring. }
    rewrite E. apply Qcdiv_mult_l. intros E0. apply (f_equal this) in E0. assert (E1 : Qeq (inject_Z (Z.of_nat n)) 0) by (rewrite <- (Qred_correct (inject_Z (Z.of_nat n))); change (Qred (inject_Z (Z.of_nat n))) with (this (Q2Qc (inject_Z (Z.of_nat n)))); rewrite E0; reflexivity).
    unfold Qeq in E1. cbn in E1. lia.
Qed.

(** Updates that differ between the processes, as with gradient noise (the seed of the random numbers contains the rank): the
    replicas drift apart. *)
Theorem C62_rank_update_refuted : ~ (forall P G B (cfg : config P G B) xs p s,
  agree cfg -> Forall (fun n => 0 < n) (c_eval cfg) -> xs <> [] -> 0 < batches xs -> c_reduce cfg = RGrad -> c_eager cfg = false ->
  Forall (fun x => fst (snd x) = p) xs ->
  steps cfg (start_epoch xs) s -> Forall finished s -> exists q, Forall (fun w => w_param w = q) s).
Proof.
  intros H. pose (cfg := toy RGrad (fun _ _ => 1) Z.of_nat []).
  set (ks := [Some 0; Some 1; None; Some 0; Some 1; None; Some 0; Some 1; Some 0; Some 1; Some 0; Some 1; None; Some 0; Some 1; None]).
  destruct (sched cfg ks (start_epoch [([4]%Z, (0%Z, 0%Z)); ([6]%Z, (0%Z, 0%Z))])) as [s|] eqn:E; [|discriminate E].
  destruct (H Z Z Z cfg [([4]%Z, (0%Z, 0%Z)); ([6]%Z, (0%Z, 0%Z))] 0%Z s) as (q & Hq);
    [intros i j r; reflexivity|constructor|discriminate|cbn; lia|reflexivity|reflexivity|repeat constructor|eapply sched_steps; exact E| |].
  - vm_compute in E. injection E as <-. repeat constructor.
  - vm_compute in E. injection E as <-. inversion Hq as [|? ? H1 Hq']; subst. inversion Hq' as [|? ? H2 _]; subst. discriminate H2.
Qed.
Print Assumptions C62_rank_update_refuted.

(** Gradients accumulated at the end of the epoch are dropped: here two processes do one step each without any effect. *)
Theorem C62_leftover_refuted : ~ (forall P G B (cfg : config P G B) xs p s,
  agree cfg -> Forall (fun n => 0 < n) (c_eval cfg) -> xs <> [] -> 0 < batches xs -> c_reduce cfg = RGrad -> c_eager cfg = false ->
  (forall i r q g, g <> c_gzero cfg -> c_update cfg i r q g <> q) ->
  Forall (fun x => fst (snd x) = p) xs -> c_gavg cfg (map (c_grad cfg p) (flat_map (fun x => firstn 1 (fst x)) xs)) <> c_gzero cfg -> batches xs = 1 ->
  steps cfg (start_epoch xs) s -> Forall finished s -> Forall (fun w => w_param w <> p) s).
Proof.
  intros H. pose (cfg := toy RGrad (fun _ _ => 2) (fun _ => 0%Z) []).
  set (ks := [Some 0; Some 1; None; Some 0; Some 1; Some 0; Some 1; Some 0; Some 1; Some 0; Some 1; None; Some 0; Some 1; None]).
  destruct (sched cfg ks (start_epoch [([4]%Z, (0%Z, 0%Z)); ([6]%Z, (0%Z, 0%Z))])) as [s|] eqn:E; [|discriminate E].
  specialize (H Z Z Z cfg [([4]%Z, (0%Z, 0%Z)); ([6]%Z, (0%Z, 0%Z))] 0%Z s).
  assert (Hq : Forall (fun w => w_param w <> 0%Z) s).
  { apply H; [intros i j r; reflexivity|constructor|discriminate|cbn; lia|reflexivity|reflexivity|cbn; lia|repeat constructor|vm_compute; discriminate|reflexivity|eapply sched_steps; exact E|].
    vm_compute in E. injection E as <-. repeat constructor. }
  vm_compute in E. injection E as <-. inversion Hq as [|? ? H1 Hq']; subst. apply H1. reflexivity.
Qed.
Print Assumptions C62_leftover_refuted.

(** ** C63 *)
(** With averaged parameters each process trains on its own and the parameters are averaged every [n] steps. *)
Theorem C63_averaged : forall P G B (cfg : config P G B) n xs s,
  agree cfg -> Forall (fun n => 0 < n) (c_eval cfg) -> xs <> [] -> 0 < batches xs -> c_reduce cfg = RParam n -> 0 < n ->
  steps cfg (start_epoch xs) s -> Forall finished s ->
  map w_param s = local_sgd cfg n (number cfg 0 (map (fun x => fst (snd x)) xs)) 0 0 (rows (batches xs) (map fst xs)).
Proof.
  intros P G B cfg n xs s Ha He Hx Hb Hred Hn H Hf. rewrite (epoch_result cfg Ha He xs Hx Hb s H Hf). rewrite result_params, <- start_todo, <- start_entries.
  apply (averaged_params cfg Ha n Hn Hred (batches xs) 0 true 0); [apply start_uniform; exact Hx|apply start_todo_len].
Qed.
Print Assumptions C63_averaged.

(** After a number of steps that is a multiple of [n] the parameters are equal. *)
Theorem C63_equal : forall P G B (cfg : config P G B) n xs s,
  agree cfg -> Forall (fun n => 0 < n) (c_eval cfg) -> xs <> [] -> 0 < batches xs -> c_reduce cfg = RParam n -> 0 < n -> batches xs mod n = 0 ->
  steps cfg (start_epoch xs) s -> Forall finished s -> exists q, Forall (fun w => w_param w = q) s.
Proof.
  intros P G B cfg n xs s Ha He Hx Hb Hred Hn Hm H Hf. pose proof (C63_averaged P G B cfg n xs s Ha He Hx Hb Hred Hn H Hf) as E.
  destruct (local_last cfg n (rows (batches xs) (map fst xs)) (number cfg 0 (map (fun x => fst (snd x)) xs)) 0 0) as (q & Hq).
  - intros E0. apply (f_equal (@length (list B))) in E0. rewrite rows_length in E0. cbn in E0. lia.
  - rewrite rows_length. exact Hm.
  - exists q. rewrite <- E in Hq. apply Forall_forall. intros w Hin. rewrite Forall_forall in Hq. symmetry. apply Hq. apply in_map. exact Hin.
Qed.
Print Assumptions C63_equal.

(** Otherwise they differ at the end of the epoch, as there is no averaging then (and rank 0 saves its own). *)
Theorem C63_end_refuted : ~ (forall P G B (cfg : config P G B) n xs p s,
  agree cfg -> Forall (fun n => 0 < n) (c_eval cfg) -> xs <> [] -> 0 < batches xs -> c_reduce cfg = RParam n -> 0 < n ->
  Forall (fun x => fst (snd x) = p) xs ->
  steps cfg (start_epoch xs) s -> Forall finished s -> exists q, Forall (fun w => w_param w = q) s).
Proof.
  intros H. pose (cfg := toy (RParam 2) (fun _ _ => 1) (fun _ => 0%Z) []).
  set (ks := [Some 0; Some 1; None; Some 0; Some 1; Some 0; Some 1; Some 0; Some 1; Some 0; Some 1; None; Some 0; Some 1; None]).
  destruct (sched cfg ks (start_epoch [([4]%Z, (0%Z, 0%Z)); ([6]%Z, (0%Z, 0%Z))])) as [s|] eqn:E; [|discriminate E].
  destruct (H Z Z Z cfg 2 [([4]%Z, (0%Z, 0%Z)); ([6]%Z, (0%Z, 0%Z))] 0%Z s) as (q & Hq);
    [intros i j r; reflexivity|constructor|discriminate|cbn; lia|reflexivity|lia|repeat constructor|eapply sched_steps; exact E| |].
  - vm_compute in E. injection E as <-. repeat constructor.
  - vm_compute in E. injection E as <-. inversion Hq as [|? ? H1 Hq']; subst. inversion Hq' as [|? ? H2 _]; subst. discriminate H2.
Qed.
Print Assumptions C63_end_refuted.

(** ** Examples *)
(** Two processes with 3 and 2 batches, gradients accumulated over two steps, one evaluation dataset with 101 batches (two
    signs of life): process 1 always first. *)
Definition cfg_grad := toy RGrad (fun _ _ => 2) (fun _ => 0%Z) [101].
Definition data2 : list (list Z * (Z * Z)) := [([4; 5; 6]%Z, (0%Z, 9%Z)); ([10; 3]%Z, (0%Z, 7%Z))].
Definition schedule_grad : list (option nat) :=
  [Some 1; Some 0; None; Some 1; Some 1; Some 1; Some 1; Some 0; Some 0; Some 0; Some 0; None; Some 0; Some 1; None; Some 1; Some 1; Some 1; Some 0; Some 0; Some 0; None; Some 1; Some 0; Some 0; None]
  ++ repeat (Some 0) 100 ++ [None; Some 0; None; Some 0; Some 1; None].
Example C61_run : exists s, sched cfg_grad schedule_grad (start_epoch data2) = Some s /\ Forall finished s /\
  map w_param s = [11; 11]%Z /\ map w_step s = [2; 2].
Proof. eexists. split; [vm_compute; reflexivity|]. split; [repeat constructor|]. split; reflexivity. Qed.
Example C62_spec : single cfg_grad 0%Z [0; 0]%Z 0 0 (rows 2 (map fst data2)) = 11%Z.
Proof. reflexivity. Qed.
Example C61_hyps : agree cfg_grad /\ Forall (fun n => 0 < n) (c_eval cfg_grad) /\ batches data2 = 2.
Proof. split; [intros i j r; reflexivity|]. split; [repeat constructor|reflexivity]. Qed.
Example C63_spec : local_sgd (toy (RParam 2) (fun _ _ => 1) (fun _ => 0%Z) []) 2 [(0, (0, 0)%Z); (1, (0, 0)%Z)] 0 0 (rows 3 [[4; 5; 6]; [10; 3; 8]]%Z) = [6; 8]%Z.
Proof. reflexivity. Qed.
Example C63_spec2 : local_sgd (toy (RParam 2) (fun _ _ => 1) (fun _ => 0%Z) []) 2 [(0, (0, 0)%Z); (1, (0, 0)%Z)] 0 0 (rows 2 [[4; 5]; [10; 3]]%Z) = [4; 4]%Z.
Proof. reflexivity. Qed.
