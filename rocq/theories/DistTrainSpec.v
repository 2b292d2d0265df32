(** What distributed training is expected to compute, as a single process would. *)
From Verif Require Import Base DistTrainModel.

Section Spec.
Context {P G B : Type}.
Variable cfg : config P G B.

Definition finished (w : worker P G B) : Prop := w_pc w = Finished.
(** All processes accumulate gradients over the same steps. *)
Definition agree : Prop := forall i j r, c_accum cfg i r = c_accum cfg j r.
(** The number of batches of the process that has the fewest. *)
Definition fewest (l : list nat) : nat := fold_right Nat.min (hd O l) l.
(** The batches of the first [n] steps, one per process in each step. *)
Fixpoint rows (n : nat) (data : list (list B)) : list (list B) :=
  match n with
  | O => []
  | S n => flat_map (fun bs => firstn 1 bs) data :: rows n (map (@tl B) data)
  end.

(** Averaged gradients: one set of parameters; the gradients of a step are computed for the batches of all processes; they
    are summed up over the accumulated steps and averaged over the processes for the update. *)
Fixpoint single (p : P) (gs : list G) (count r : nat) (rws : list (list B)) : P :=
  match rws with
  | [] => p
  | row :: rws' =>
      let gs' := map (fun '(g, b) => c_gadd cfg g (c_grad cfg p b)) (combine gs row) in
      if (c_accum cfg 0 r <=? count + 1)%nat
      then single (c_update cfg 0 r p (c_gavg cfg gs')) (map (fun _ => c_gzero cfg) gs') 0 (S r) rws'
      else single p gs' (count + 1) (S r) rws'
  end.
(** Averaged parameters: each process has its own parameters and updates; every [n] steps the parameters are averaged. *)
Fixpoint local_sgd (n : nat) (st : list (nat * (P * G))) (count r : nat) (rws : list (list B)) : list P :=
  match rws with
  | [] => map (fun x => fst (snd x)) st
  | row :: rws' =>
      let st1 := map (fun '((i, (p, g)), b) => (i, (p, c_gadd cfg g (c_grad cfg p b)))) (combine st row) in
      let perform := (c_accum cfg 0 r <=? count + 1)%nat in
      let st2 := if perform then map (fun '(i, (p, g)) => (i, (c_update cfg i r p g, c_gzero cfg))) st1 else st1 in
      let mean := c_pavg cfg (map (fun x => fst (snd x)) st2) in
      let st3 := if (S r mod n =? 0)%nat then map (fun '(i, (_, g)) => (i, (mean, g))) st2 else st2 in
      local_sgd n st3 (if perform then O else count + 1)%nat (S r) rws'
  end.
(** The number of steps of the epoch: one process without a further batch ends the epoch for all. *)
Definition batches (xs : list (list B * (P * G))) : nat := fewest (map (fun x => length (fst x)) xs).
(** The processes with their parameters, without gradients. *)
Fixpoint number (a : nat) (l : list P) : list (nat * (P * G)) :=
  match l with [] => [] | p :: l => (a, (p, c_gzero cfg)) :: number (S a) l end.
(** Nothing can happen any more. *)
Definition stuck (s : list (worker P G B)) : Prop := forall s', ~ step cfg s s'.
(** No endless schedule. *)
Definition no_endless_run (s : list (worker P G B)) : Prop :=
  ~ exists f : nat -> list (worker P G B), f O = s /\ forall i, step cfg (f i) (f (S i)).
(** The mean commutes with the accumulation of gradients. *)
Definition linear_mean : Prop :=
  (forall gs hs, length gs = length hs -> c_gavg cfg (map (fun '(g, h) => c_gadd cfg g h) (combine gs hs)) = c_gadd cfg (c_gavg cfg gs) (c_gavg cfg hs)) /\
  (forall a n, (0 < n)%nat -> c_gavg cfg (repeat a n) = a).
End Spec.
