(** Averaging checkpoints, tools/torch_avg_checkpoints.py.

    Tensors are single numbers (all operations are elementwise) in exact arithmetic. A file gives each parameter a tensor; as
    [torch.load] keeps shared tensors shared, two parameters can have the same one. Missing lists of merged epochs and steps are empty ones. Output to the file is not modelled. *)
From Coq Require Import String QArith Qcanon.
From Verif Require Import Base.
Local Open Scope nat_scope.

Record ckpt := Ckpt { params : list (string * nat); value : nat -> Qc; epoch : option nat; step : option nat; merged_epochs : list (option nat); merged_steps : list (option nat); others : list (string * nat) }.

(** A tensor: the number of the file, and which one in it *)
Definition loc : Type := nat * nat.
Definition loc_eqb (a b : loc) : bool := (fst a =? fst b) && (snd a =? snd b).
Fixpoint find {A} (k : string) (l : list (string * A)) : option A := match l with [] => None | (k', v) :: l => if String.eqb k k' then Some v else find k l end.

(** The tensors in memory, [out_model_state], [out_model_state_num] and the rest of [out_state], 65-67 *)
Record state := State { mem : loc -> Qc; model : list (string * loc); num : string -> nat; o_epoch : option nat; o_step : option nat; o_epochs : list (option nat); o_steps : list (option nat); o_others : list (string * nat) }.

(** 79-86: the addition is in place *)
Definition add_param (i : nat) (s : state) (p : string * nat) : state :=
  let '(k, a) := p in
  let num' := fun k' => if String.eqb k k' then S (num s k') else num s k' in
  match find k (model s) with
  | Some l => State (fun l' => if loc_eqb l l' then (mem s l + mem s (i, a))%Qc else mem s l') (model s) num' (o_epoch s) (o_step s) (o_epochs s) (o_steps s) (o_others s)
  | None => State (mem s) (model s ++ [(k, (i, a))]) num' (o_epoch s) (o_step s) (o_epochs s) (o_steps s) (o_others s)
  end.
(** 89-95 *)
Definition take_max (a b : option nat) : option nat := match a, b with Some a, Some b => Some (Nat.max a b) | Some a, None => Some a | None, b => b end.
(** 106-110 *)
Definition add_other (l : list (string * nat)) (p : string * nat) : list (string * nat) := match find (fst p) l with Some _ => l | None => l ++ [p] end.
(** One checkpoint, 68-110 *)
Definition add_ckpt (s : state) (ic : nat * ckpt) : state :=
  let '(i, c) := ic in
  let s := fold_left (add_param i) (params c) s in
  State (mem s) (model s) (num s) (take_max (o_epoch s) (epoch c)) (take_max (o_step s) (step c))
    (o_epochs s ++ merged_epochs c ++ [epoch c]) (o_steps s ++ merged_steps c ++ [step c]) (fold_left add_other (others c) (o_others s)).

Record result := Result { r_params : list (string * Qc); r_epoch : option nat; r_step : option nat; r_epochs : list (option nat); r_steps : list (option nat); r_others : list (string * nat) }.
(** [merge_checkpoints], 61-121, without [extra_state] *)
Definition merge (cs : list ckpt) : result :=
  let mem0 := fun l : loc => match nth_error cs (fst l) with Some c => value c (snd l) | None => Q2Qc 0 end in
  let s := fold_left add_ckpt (combine (seq 0 (length cs)) cs) (State mem0 [] (fun _ => 0) None None [] [] []) in
  Result (map (fun kl => (fst kl, mem s (snd kl) / Q2Qc (inject_Z (Z.of_nat (num s (fst kl)))))%Qc) (model s)) (o_epoch s) (o_step s) (o_epochs s) (o_steps s) (o_others s).
