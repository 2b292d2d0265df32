(** Model of one epoch of distributed training of the PyTorch engine: torch/engine.py [train_epoch] and [eval_model],
    torch/distributed.py. The processes run side by side; they meet in collective operations only. A collective
    operation completes when all processes have reached it, and it needs all of them to be in the same kind of
    operation. *)
From Verif Require Import Base.

(** Some process specific settings, torch/distributed.py 58-70. [RGrad]: [DistributedDataParallel] averages the gradients.
    [RParam n]: the parameters are averaged after each [n] steps. *)
Inductive reduce_type := RGrad | RParam (n : nat).

(** Where a process is. [AtHasData], [AtGrad], [AtParam], [AtSend], [AtRecv] and [AtScores] are the collective operations:
    [all_reduce] of [_has_data] (engine.py 387), of the gradients in [backward] (engine.py 442-450), of the
    parameters (distributed.py 134-137), [broadcast] of [_has_data] in the evaluation as source (engine.py 625, 686) and as
    receiver (engine.py 610), and [broadcast_object_list] (engine.py 700). *)
Inductive pc {B : Type} :=
| Fetch
| AtHasData (b : option B)
| Backward (b : B)
| AtGrad
| Update
| Next
| AtParam
| EvalNext (datasets : list nat)
| EvalStep (datasets : list nat) (k : nat)
| AtSend (datasets : list nat) (k : nat) (v : bool)
| AtRecv (datasets : list nat)
| AtScores
| Finished
| Failed.
Arguments pc : clear implicits.

Section Model.
Context {P G B : Type}.
(** What the configuration, the network and the optimizer determine: gradients, the update (with the state of the
    optimizer as part of [P]; it may depend on the process and on the step), averages, the number of steps for which
    gradients are accumulated, and the number of batches of the evaluation datasets. [eager]: the gradients are averaged
    in every backward pass, also inside of [no_sync] (which depends on the version of PyTorch, as the forward pass is
    outside of [no_sync] here). Buffers of the network, which [DistributedDataParallel] broadcasts in the forward pass, are
    not modelled. *)
Record config := {
  c_reduce : reduce_type;
  c_eager : bool;
  c_accum : nat -> nat -> nat;
  c_grad : P -> B -> G;
  c_gzero : G;
  c_gadd : G -> G -> G;
  c_gavg : list G -> G;
  c_pavg : list P -> P;
  c_update : nat -> nat -> P -> G -> P;
  c_eval : list nat
}.
Variable cfg : config.
Record worker := { w_rank : nat; w_todo : list B; w_param : P; w_grad : G; w_zero : bool; w_count : nat; w_step : nat; w_pc : pc B }.

Definition at_pc (w : worker) (q : pc B) : worker :=
  {| w_rank := w_rank w; w_todo := w_todo w; w_param := w_param w; w_grad := w_grad w; w_zero := w_zero w; w_count := w_count w;
     w_step := w_step w; w_pc := q |}.
(** [next(data_iter, None)], engine.py 375. *)
Definition fetch (w : worker) : worker :=
  {| w_rank := w_rank w; w_todo := tl (w_todo w); w_param := w_param w; w_grad := w_grad w; w_zero := w_zero w; w_count := w_count w;
     w_step := w_step w; w_pc := AtHasData (hd_error (w_todo w)) |}.
(** The step up to the backward pass, engine.py 404-450. [perform_update_step] is kept as [zero_grad_next_step]. *)
Definition backward (w : worker) (b : B) : worker :=
  let g := if w_zero w then c_gzero cfg else w_grad w in
  let count := ((if w_zero w then 0 else w_count w) + 1)%nat in
  let perform := (c_accum cfg (w_rank w) (w_step w) <=? count)%nat in
  let sync := match c_reduce cfg with RGrad => perform || c_eager cfg | RParam _ => false end in
  {| w_rank := w_rank w; w_todo := w_todo w; w_param := w_param w; w_grad := c_gadd cfg g (c_grad cfg (w_param w) b);
     w_zero := perform; w_count := count; w_step := w_step w; w_pc := if sync then AtGrad else Update |}.
(** [self._updater.step()] if [perform_update_step], engine.py 458-461. *)
Definition update (w : worker) : worker :=
  {| w_rank := w_rank w; w_todo := w_todo w;
     w_param := if w_zero w then c_update cfg (w_rank w) (w_step w) (w_param w) (w_grad w) else w_param w;
     w_grad := w_grad w; w_zero := w_zero w; w_count := w_count w; w_step := w_step w; w_pc := Next |}.
(** [step_idx += 1], engine.py 521, and back to the head of the loop. *)
Definition next_step (w : worker) : worker :=
  {| w_rank := w_rank w; w_todo := w_todo w; w_param := w_param w; w_grad := w_grad w; w_zero := w_zero w; w_count := w_count w;
     w_step := S (w_step w); w_pc := Fetch |}.
(** What a process does on its own. [None] if it waits in a collective operation or has ended. [EvalNext] is the loop over
    the datasets (engine.py 595), [EvalStep] the loop over the batches on rank 0 (engine.py 622-666); without any batch the
    assertion in line 668 fails. *)
Definition local_step (w : worker) : option worker :=
  match w_pc w with
  | Fetch => Some (fetch w)
  | Backward b => Some (backward w b)
  | Update => Some (update w)
  | Next =>
      match c_reduce cfg with
      | RGrad => Some (next_step w)
      | RParam n => if (w_step w mod n =? n - 1)%nat then Some (at_pc w AtParam) else Some (next_step w)
      end
  | EvalNext [] => Some (at_pc w AtScores)
  | EvalNext (n :: ds) => if (w_rank w =? 0)%nat then Some (at_pc w (EvalStep (n :: ds) 0)) else Some (at_pc w (AtRecv (n :: ds)))
  | EvalStep [] _ => None
  | EvalStep (n :: ds) k =>
      if (k <? n)%nat then
        if (k mod 100 =? 0)%nat then Some (at_pc w (AtSend (n :: ds) k true)) else Some (at_pc w (EvalStep (n :: ds) (S k)))
      else if (0 <? n)%nat then Some (at_pc w (AtSend (n :: ds) k false)) else Some (at_pc w Failed)
  | AtHasData _ | AtGrad | AtParam | AtSend _ _ _ | AtRecv _ | AtScores | Finished | Failed => None
  end.

(** ** Collective operations *)
Definition is_has_data (w : worker) : bool := match w_pc w with AtHasData _ => true | _ => false end.
Definition has_data (w : worker) : bool := match w_pc w with AtHasData (Some _) => true | _ => false end.
Definition is_grad (w : worker) : bool := match w_pc w with AtGrad => true | _ => false end.
Definition is_param (w : worker) : bool := match w_pc w with AtParam => true | _ => false end.
Definition is_scores (w : worker) : bool := match w_pc w with AtScores => true | _ => false end.
Definition is_flag (w : worker) : bool :=
  match w_pc w with AtSend _ _ _ => (w_rank w =? 0)%nat | AtRecv _ => negb (w_rank w =? 0)%nat | _ => false end.
Definition sent (ws : list worker) : option bool :=
  match filter (fun w => (w_rank w =? 0)%nat) ws with w :: _ => match w_pc w with AtSend _ _ v => Some v | _ => None end | [] => None end.
(** After [all_reduce] with [MIN] of [_has_data], engine.py 386-390. Without any step the minimum over the padding ratios
    (engine.py 536-539) is the minimum of an empty list and raises an exception. Then the end of [train_epoch] (saving the model
    and the scores on rank 0) and the begin of [eval_model], engine.py 533-579. *)
Definition after_has_data (all : bool) (w : worker) : worker :=
  if all then match w_pc w with AtHasData (Some b) => at_pc w (Backward b) | _ => w end
  else if (w_step w =? 0)%nat then at_pc w Failed else at_pc w (EvalNext (c_eval cfg)).
Definition after_grad (g : G) (w : worker) : worker :=
  {| w_rank := w_rank w; w_todo := w_todo w; w_param := w_param w; w_grad := g; w_zero := w_zero w; w_count := w_count w;
     w_step := w_step w; w_pc := Update |}.
Definition after_param (p : P) (w : worker) : worker :=
  next_step {| w_rank := w_rank w; w_todo := w_todo w; w_param := p; w_grad := w_grad w; w_zero := w_zero w; w_count := w_count w;
     w_step := w_step w; w_pc := AtParam |}.
(** Rank 0 goes on with the batch or with the next dataset; the others wait again or go to the next dataset, engine.py
    608-611, 623-666, 683-686. *)
Definition after_flag (v : bool) (w : worker) : worker :=
  match w_pc w with
  | AtSend ds k v' => if v' then at_pc w (EvalStep ds (S k)) else at_pc w (EvalNext (tl ds))
  | AtRecv ds => if v then w else at_pc w (EvalNext (tl ds))
  | _ => w
  end.
Definition collective (ws : list worker) : option (list worker) :=
  if forallb is_has_data ws then Some (map (after_has_data (forallb has_data ws)) ws)
  else if forallb is_grad ws then Some (map (after_grad (c_gavg cfg (map w_grad ws))) ws)
  else if forallb is_param ws then Some (map (after_param (c_pavg cfg (map w_param ws))) ws)
  else if forallb is_flag ws then match sent ws with Some v => Some (map (after_flag v) ws) | None => None end
  else if forallb is_scores ws then Some (map (fun w => at_pc w Finished) ws)
  else None.

(** One step of the whole system: one process moves, or a collective operation completes. *)
Inductive step : list worker -> list worker -> Prop :=
| step_local : forall l w w' r, local_step w = Some w' -> step (l ++ w :: r) (l ++ w' :: r)
| step_collective : forall ws ws', collective ws = Some ws' -> step ws ws'.
Inductive steps : list worker -> list worker -> Prop :=
| steps_refl : forall ws, steps ws ws
| steps_cons : forall a b c, step a b -> steps b c -> steps a c.

(** The processes at the begin of an epoch: the batches, parameters and left over gradients of each. *)
Definition start (rank : nat) (x : list B * (P * G)) : worker :=
  {| w_rank := rank; w_todo := fst x; w_param := fst (snd x); w_grad := snd (snd x); w_zero := true; w_count := 0; w_step := 0; w_pc := Fetch |}.
Fixpoint start_from (rank : nat) (xs : list (list B * (P * G))) : list worker :=
  match xs with [] => [] | x :: xs' => start rank x :: start_from (S rank) xs' end.
Definition start_epoch (xs : list (list B * (P * G))) : list worker := start_from 0 xs.
End Model.
Arguments config : clear implicits.
Arguments worker : clear implicits.
