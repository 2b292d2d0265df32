(** Model of the piecewise linear function of the frontend: /repo/returnn/frontend/piecewise_linear.py, and of the scheduler
    /repo/returnn/frontend/stepwise_scheduler.py, which calls it with the current step. For one number [x] of a tensor with [ndim]
    dims, and numbers as values. Rational numbers, no rounding of floats; [None] is NaN. *)
From Coq Require Import QArith.
From Verif Require Import Base LrModel SearchModel.
Local Open Scope nat_scope. Local Open Scope list_scope.

(** [PiecewiseLinear.__init__], frontend/piecewise_linear.py 20-41 *)
Definition pcw_init (points : list (Q * Q)) : res (list (Q * Q)) :=
  match points with [] => Err ValueError | _ => Ok (sort_items points) end.
(** [rf.clip_by_value], frontend/piecewise_linear.py 48, which is [torch.clamp]: the maximum wins *)
Definition clamp (i lo hi : nat) : nat := Nat.min (Nat.max i lo) hi.
(** [rf.gather] with an index of [ndim] dims: torch/frontend/_backend.py 1035-1050; [None] is the index -1, which only indexing takes as the last one *)
Definition gather_at (ndim : nat) (l : list Q) (i : option nat) : res Q :=
  match i with
  | Some i => match nth_error l i with Some v => Ok v | None => Err IndexError end
  | None => if ndim <=? 1 then match nth_error l (length l - 1) with Some v => Ok v | None => Err IndexError end else Err IndexError
  end.
(** [index - 1], frontend/piecewise_linear.py 49, 53 *)
Definition pred_index (i : nat) : option nat := match i with O => None | S i => Some i end.
(** frontend/piecewise_linear.py 51-52: the quotient of floats, clipped to 0 and 1 *)
Definition clipped_frac (a b : Q) : option Q :=
  if Qeq_bool b 0 then (if Qeq_bool a 0 then None else Some (if Qlt_bool a 0 then 0 else 1)%Q)
  else let q := (a / b)%Q in Some (if Qlt_bool q 0 then 0 else if Qlt_bool 1 q then 1 else q)%Q.
(** [PiecewiseLinear.__call__], frontend/piecewise_linear.py 42-55. [search_sorted] gives the number of keys less than [x]. *)
Definition pcw_call (ndim : nat) (points : list (Q * Q)) (x : Q) : res (option Q) :=
  let* items := pcw_init points in
  let keys := map fst items in
  let values := map snd items in
  let index := clamp (bisect_left keys x) 1 (length keys - 1) in
  let* x_start := gather_at ndim keys (pred_index index) in
  let* x_end := gather_at ndim keys (Some index) in
  let frac := clipped_frac (x - x_start) (x_end - x_start) in
  let* y_start := gather_at ndim values (pred_index index) in
  let* y_end := gather_at ndim values (Some index) in
  Ok (match frac with Some f => Some (y_start + f * (y_end - y_start))%Q | None => None end).
