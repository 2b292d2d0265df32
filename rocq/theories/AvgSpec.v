(** What the average of checkpoints should be. *)
From Coq Require Import String QArith Qcanon.
From Verif Require Import Base AvgModel.
Local Open Scope nat_scope.

(** The value of a parameter in a checkpoint *)
Definition param (k : string) (c : ckpt) : option Qc := option_map (value c) (find k (params c)).
Fixpoint somes {A} (l : list (option A)) : list A := match l with [] => [] | Some a :: l => a :: somes l | None :: l => somes l end.
Definition sum (l : list Qc) : Qc := fold_left Qcplus l (Q2Qc 0).
(** The average over the checkpoints which have the parameter *)
Definition average (k : string) (cs : list ckpt) : option Qc :=
  match somes (map (param k) cs) with [] => None | l => Some (sum l / Q2Qc (inject_Z (Z.of_nat (length l))))%Qc end.
(** The parameters of a file have different names; *)
Definition names_ok (c : ckpt) : Prop := NoDup (map fst (params c)).
(** and do not share tensors. *)
Definition not_shared (c : ckpt) : Prop := NoDup (map snd (params c)).
(** The largest number *)
Definition largest (l : list (option nat)) : option nat := match somes l with [] => None | l => Some (list_max l) end.
