(** Specification vocabulary for C05. *)
From Verif Require Import Base SeqOrderModel SeqOrderSpec DistribModel.
From Coq Require Import String.
Local Open Scope nat_scope.

(** A history of one shard observed that sub epoch [e] was read from the files [fs]. *)
Definition observed (FL : float_api) (F : Type) size_of R cfg (files : list F) preload s e fs : Prop :=
  exists ops d out, run_ops FL F size_of R (with_shard cfg s) files preload ops (dfd_init F) = Ok (d, out)
    /\ In (e, fs) out.
