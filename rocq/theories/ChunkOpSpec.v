(** What chunking and unchunking should do. *)
From Coq Require Import QArith Qcanon.
From Verif Require Import Base.
Local Open Scope nat_scope.

(** A tensor with [nx] frames of [ny] entries, and its entry *)
Definition tensor {A} (nx ny : nat) (t : list (list A)) : Prop := length t = nx /\ Forall (fun r => length r = ny) t.
Definition val {A} (d : A) (t : list (list A)) (x y : nat) : A := nth y (nth x t []) d.
(** The entry, or zero if the frame does not exist or is masked *)
Definition frame (n_time : nat) (x : list (list Qc)) (index : list (list bool)) (t y : nat) : Qc :=
  if (t <? n_time) && val false index t y then val 0%Qc x t y else 0%Qc.

Fixpoint sumn (n : nat) (f : nat -> Qc) : Qc := match n with O => 0%Qc | S m => (sumn m f + f m)%Qc end.
(** The scalar product of two tensors *)
Definition dot (nx ny : nat) (a b : list (list Qc)) : Qc := sumn nx (fun x => sumn ny (fun y => (val 0%Qc a x y * val 0%Qc b x y)%Qc)).

(** The chunks which have the frame [t] of the sequence [y] (not masked): chunk [c] of [n] is the entry [y * n + c], and its
    frame [x] is the frame [step * c + x] of the sequence. *)
Definition covering (n size step : nat) (cindex : list (list bool)) (t y : nat) : list nat :=
  filter (fun c => (step * c <=? t) && (t <? step * c + size) && val false cindex (t - step * c) (y * n + c))%bool (seq 0 n).
Definition lsum (f : nat -> Qc) (l : list nat) : Qc := fold_right (fun c s => f c + s)%Qc 0%Qc l.
Definition qn (n : nat) : Qc := Q2Qc (inject_Z (Z.of_nat n)).

(** The mask of the chunks is the mask of the sequences. Chunk [c] of [n] of the sequence [y] is the entry [y * n + c]; its frame [x] is the frame [step * c + x] of the sequence. *)
Definition same_mask (n_time batch n size step : nat) (index : list (list bool)) (cindex : list (list bool)) : Prop :=
  forall y c x, y < batch -> c < n -> x < size ->
    val false cindex x (y * n + c) = ((step * c + x <? n_time) && val false index (step * c + x) y)%bool.
