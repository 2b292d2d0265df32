(** Model of [Stats]: /repo/returnn/util/basic.py:3954-4046. Numbers are rational (no rounding). The data has the shape (time,); with shape (time, dim) all operations of the code are per component, so the model is for one component. *)
From Coq Require Import QArith Qminmax.
From Verif Require Import Base.
Local Open Scope list_scope. Local Open Scope Q_scope.

Definition qsum (l : list Q) : Q := fold_right Qplus 0 l.
Definition qlen (l : list Q) : Q := inject_Z (Z.of_nat (length l)).
(** [numpy.mean] and [numpy.var] of a non-empty array, library functions *)
Definition np_mean (l : list Q) : Q := qsum l / qlen l.
Definition np_var (l : list Q) : Q := qsum (map (fun x => (x - np_mean l) * (x - np_mean l)) l) / qlen l.
(** [numpy.min], [numpy.max] of a non-empty array *)
Definition np_min (x : Q) (l : list Q) : Q := fold_left Qmin l x.
Definition np_max (x : Q) (l : list Q) : Q := fold_left Qmax l x.

Record stats := Stats { mean : Q; mean_sq : Q; var : Q; s_min : option Q; s_max : option Q; total_data_len : nat; num_seqs : nat }.
(** lines 3961-3973 *)
Definition stats_init : stats := Stats 0 0 0 None None 0 0.
(** lines 3994-4027 *)
Definition collect (s : stats) (data : list Q) : stats :=
  match data with
  | [] => s
  | x :: data' =>
      let data_min := np_min x data' in
      let data_max := np_max x data' in
      let n := qlen data in
      let total := inject_Z (Z.of_nat (total_data_len s)) in
      let new_total := inject_Z (Z.of_nat (total_data_len s + length data)) in
      let mean_diff := np_mean data - mean s in
      let m_a := var s * total in
      let m_b := np_var data * n in
      let m2 := m_a + m_b + mean_diff * mean_diff * total * n / new_total in
      let delta := qsum data - mean s * n in
      let delta_sq := qsum (map (fun x => x * x) data) - mean_sq s * n in
      Stats (mean s + delta / new_total) (mean_sq s + delta_sq / new_total) (m2 / new_total)
        (Some (match s_min s with None => data_min | Some m => Qmin m data_min end))
        (Some (match s_max s with None => data_max | Some m => Qmax m data_max end))
        (total_data_len s + length data) (S (num_seqs s))
  end.
(** lines 4028-4034 and 4036-4045 (the square of the standard deviation) *)
Definition get_mean (s : stats) : res Q := if (0 <? num_seqs s)%nat then Ok (mean s) else Err AssertionError.
Definition get_var (s : stats) : res Q := if (0 <? num_seqs s)%nat then Ok (var s) else Err AssertionError.
