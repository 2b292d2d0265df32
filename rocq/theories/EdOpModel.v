(** The native operations for edit distances: [EditDistanceOp], [OptimalCompletionEditDistanceOp],
    [OptimalCompletionEditDistancePerSuccessorOp], [NextEditDistanceRowOp] and [NextEditDistanceReduceOp]
    in returnn/native_op.py, and their python wrappers in returnn/tf/native_op.py.

    Arrays are flat, as in the C code.  Every access is checked: an operation gives [None] when it reads or
    writes outside of an array, so that a result [Some _] includes memory safety.  Uninitialised memory has
    arbitrary content.  Simplifications: numbers are unbounded (C: int32), sequence lengths are not negative,
    and the iterations of the loop of a kernel run one after the other, in an arbitrary order, each of them
    as a whole (in one kernel call all the arrays which are read are not written, apart from the result cell of an
    atomic minimum). *)
From Verif Require Import Base.

(** ** Memory *)
(** [p[i]] *)
Definition load {A} (l : list A) (i : nat) : option A := nth_error l i.
(** [p[i] = v] *)
Fixpoint store {A} (l : list A) (i : nat) (v : A) : option (list A) :=
  match l, i with
  | [], _ => None
  | _ :: l', O => Some (v :: l')
  | x :: l', S i' => match store l' i' v with Some l'' => Some (x :: l'') | None => None end
  end.
(** [i - 1], where a negative index is an error *)
Definition sub1 (i : nat) : option nat := match i with O => None | S i' => Some i' end.
Definition obind {A B} (x : option A) (f : A -> option B) : option B := match x with Some v => f v | None => None end.
Notation "'let?' x := e 'in' f" := (obind e (fun x => f)) (at level 200, x name, e at level 100, f at level 200).
(** One kernel call: the iterations in the order [order] *)
Fixpoint each {S} (f : S -> nat -> option S) (s : S) (order : list nat) : option S :=
  match order with [] => Some s | i :: r => let? s' := f s i in each f s' r end.

(** ** The diagonals, returnn/native_op.py 5279-5305 (the same code in 5474-5500 and 5667-5693) *)
(** [num_entries], 5280-5289 *)
Definition num_entries (na nb diag : nat) : nat :=
  if diag <=? na then Nat.min (diag + 1) (nb + 1)
  else Nat.min (nb + 1 - (diag - na)) (na + 1).
(** [max_num_entries], 5290-5292 and 5373 *)
Definition max_num_entries (na nb : nat) : nat := Nat.min (na + 1) (nb + 1).
(** [t_a], [t_b], 5298-5305 *)
Definition cell (na diag entry : nat) : nat * nat :=
  if diag <=? na then (diag - entry, entry) else (na - entry, diag - na + entry).

(** The new [cur_dist[dist_idx]], 5307-5338 *)
Definition new_dist (na nb diag k entry : nat) (a b last1 last2 : list Z) : option Z :=
  let dist_idx := k * max_num_entries na nb + entry in
  let '(ta, tb) := cell na diag entry in
  if ta =? 0 then Some (Z.of_nat tb)
  else if tb =? 0 then Some (Z.of_nat ta)
  else
    let? last1_idx := (if diag - 1 <? na then sub1 dist_idx
                       else if diag - 1 =? na then Some dist_idx
                       else Some (dist_idx + 1)) in
    let? last2_idx := (if diag <=? na then sub1 dist_idx else Some dist_idx) in
    let? del := load last2 last2_idx in
    let? ins := load last2 (last2_idx + 1) in
    let? sub := load last1 last1_idx in
    let? x := load a (k * na + ta - 1) in
    let? y := load b (k * nb + tb - 1) in
    Some (Z.min (Z.min (del + 1) (ins + 1)) (if (x =? y)%Z then sub else sub + 1))%Z.

(** What the three kernels do with a new entry of the table: for the sequence [k], the cell [(t_a, t_b)] and
    its value. *)
Definition sink := nat -> nat -> nat -> Z -> list Z -> option (list Z).
(** [next_step_kernel], 5271-5346, one iteration of the loop *)
Definition step_kernel (f : sink) (na nb diag : nat) (a b last1 last2 : list Z) (s : list Z * list Z) (idx : nat)
    : option (list Z * list Z) :=
  let '(cur, result) := s in
  let k := idx / num_entries na nb diag in
  let entry := idx mod num_entries na nb diag in
  let '(ta, tb) := cell na diag entry in
  let? v := new_dist na nb diag k entry a b last1 last2 in
  let? cur' := store cur (k * max_num_entries na nb + entry) v in
  let? result' := f k ta tb v result in
  Some (cur', result').

(** The loop over the diagonals with the three rotating buffers, 5379-5394 ([fuel] diagonals from [diag] on);
    [order diag] is the order of the iterations of the kernel call. *)
Fixpoint diagonals (f : sink) (na nb : nat) (a b : list Z) (order : nat -> list nat) (fuel diag : nat)
    (last1 last2 cur result : list Z) : option (list Z) :=
  match fuel with
  | O => Some result
  | S fuel' =>
      let? s := each (step_kernel f na nb diag a b last1 last2) (cur, result) (order diag) in
      let '(cur', result') := s in
      diagonals f na nb a b order fuel' (diag + 1) last2 cur' last1 result'
  end.
(** [c_fw_code], 5350-5397: the buffer consists of three parts of the given (arbitrary) content. *)
Definition run_diagonals (f : sink) (na nb : nat) (a b : list Z) (order : nat -> list nat)
    (buf1 buf2 buf3 result : list Z) : option (list Z) :=
  diagonals f na nb a b order (na + nb + 1) 0 buf1 buf2 buf3 result.

(** 5341-5342 *)
Definition sink_last (a_len b_len : list nat) : sink := fun k ta tb v result =>
  let? la := load a_len k in
  let? lb := load b_len k in
  if (ta =? la) && (tb =? lb) then store result k v else Some result.
(** [EditDistanceOp], 5205-5399: the result is initialised by -1 (5370). *)
Definition edit_distance_op (na nb : nat) (a : list Z) (a_len : list nat) (b : list Z) (b_len : list nat)
    (order : nat -> list nat) (buf1 buf2 buf3 : list Z) : option (list Z) :=
  run_diagonals (sink_last a_len b_len) na nb a b order buf1 buf2 buf3 (repeat (-1)%Z (length a_len)).

(** 5534-5535 *)
Definition sink_min (a_len b_len : list nat) : sink := fun k ta tb v result =>
  let? la := load a_len k in
  let? lb := load b_len k in
  if (ta =? la) && (tb <=? lb) then let? old := load result k in store result k (Z.min old v) else Some result.
(** [OptimalCompletionEditDistanceOp], 5402-5592: the result is initialised by the largest int32 (5456-5462). *)
Definition int32_max : Z := 2147483647%Z.
Definition optimal_completion_op (na nb : nat) (a : list Z) (a_len : list nat) (b : list Z) (b_len : list nat)
    (order : nat -> list nat) (buf1 buf2 buf3 : list Z) : option (list Z) :=
  run_diagonals (sink_min a_len b_len) na nb a b order buf1 buf2 buf3 (repeat int32_max (length a_len)).

(** 5727-5728 *)
Definition sink_row (nb : nat) (a_len b_len : list nat) : sink := fun k ta tb v row =>
  let? la := load a_len k in
  let? lb := load b_len k in
  if (ta =? la) && (tb <=? lb) then store row (k * (nb + 1) + tb) v else Some row.
(** [init_result_kernel], 5736-5756 *)
Definition init_result_kernel (nb n_labels : nat) (a_len b_len : list nat) (row : list Z) (result : list Z) (idx : nat)
    : option (list Z) :=
  let k := idx / n_labels in
  let? la := load a_len k in
  let? lb := load b_len k in
  let? d := load row (k * (nb + 1) + lb) in
  store result (k * n_labels + idx mod n_labels) (Z.min (Z.of_nat (la + 1)) (d + 1)).
(** [expand_kernel], 5760-5786 *)
Definition expand_kernel (nb n_labels : nat) (b : list Z) (b_len : list nat) (row successors : list Z)
    (result : list Z) (idx : nat) : option (list Z) :=
  let k := idx / nb / n_labels in
  let j := (idx / nb) mod n_labels in
  let tb := idx mod nb in
  let? x := load successors j in
  let? lb := load b_len k in
  if tb <? lb then
    let? sub := load row (k * (nb + 1) + tb) in
    let? y := load b (k * nb + tb) in
    let? old := load result (k * n_labels + j) in
    store result (k * n_labels + j) (Z.min old (if (x =? y)%Z then sub else sub + 1))
  else Some result.
(** [OptimalCompletionEditDistancePerSuccessorOp], 5595-5863 *)
Definition per_successor_op (na nb : nat) (a : list Z) (a_len : list nat) (b : list Z) (b_len : list nat)
    (successors : list Z) (order : nat -> list nat) (order_init order_expand : list nat)
    (buf1 buf2 buf3 row : list Z) : option (list Z) :=
  let? row' := run_diagonals (sink_row nb a_len b_len) na nb a b order buf1 buf2 buf3 row in
  let n_labels := length successors in
  let? r := each (init_result_kernel nb n_labels a_len b_len row') (repeat (-1)%Z (length a_len * n_labels)) order_init in
  each (expand_kernel nb n_labels b b_len row' successors) r order_expand.

(** ** Row by row *)
(** The loop over [t_b], 5953-5963: [n] more entries from [t_b] on *)
Fixpoint row_loop (nb k : nat) (last_row b : list Z) (x : Z) (n t_b : nat) (last_dist : Z) : option (list Z) :=
  match n with
  | O => Some []
  | S n' =>
      let? ins := load last_row (k * (nb + 1) + t_b) in
      let? sub := load last_row (k * (nb + 1) + t_b - 1) in
      let? y := load b (k * nb + t_b - 1) in
      let d := Z.min (Z.min (ins + 1) (last_dist + 1)) (if (x =? y)%Z then sub else sub + 1)%Z in
      let? rest := row_loop nb k last_row b x n' (t_b + 1) d in
      Some (d :: rest)
  end.
(** The copy of a row, 5966-5970: [n] more entries from [t_b] on *)
Fixpoint copy_loop (nb k : nat) (last_row : list Z) (n t_b : nat) : option (list Z) :=
  match n with
  | O => Some []
  | S n' => let? d := load last_row (k * (nb + 1) + t_b) in let? rest := copy_loop nb k last_row n' (t_b + 1) in Some (d :: rest)
  end.
(** [next_row_kernel], 5938-5978, one iteration of the loop: the new row of the sequence [k].  Simplification: each
    iteration writes its own row of the output; a length larger than the row is an error here. *)
Definition next_row_kernel (nb : nat) (last_row a : list Z) (a_n : list nat) (a_ended : list bool) (b : list Z) (b_len : list nat)
    (k : nat) : option (list Z) :=
  let? ended := load a_ended k in
  let? lb := load b_len k in
  let? row := (if negb ended then
      let? n := load a_n k in
      let? x := load a k in
      let last_dist := Z.of_nat (n + 1) in
      let? r := row_loop nb k last_row b x lb 1 last_dist in
      Some (last_dist :: r)
    else copy_loop nb k last_row (lb + 1) 0) in
  if lb <=? nb then Some (row ++ repeat (last row 0%Z) (nb - lb)) else None.
Fixpoint rows {A} (f : nat -> option (list A)) (n k : nat) : option (list A) :=
  match n with O => Some [] | S n' => let? r := f k in let? rest := rows f n' (k + 1) in Some (r ++ rest) end.
(** [NextEditDistanceRowOp], 5866-6022 *)
Definition next_row_op (nb : nat) (last_row a : list Z) (a_n : list nat) (a_ended : list bool) (b : list Z) (b_len : list nat)
    : option (list Z) :=
  rows (next_row_kernel nb last_row a a_n a_ended b b_len) (length b_len) 0.

(** [calc_result_kernel], 6113-6160, one iteration of the loop: the result for the sequence [k] and a label.
    The minimum [total_min_error] and the last value of the row are taken of the list of all values. *)
Definition calc_result_kernel (nb n_labels : nat) (last_row a : list Z) (broadcast : bool) (a_n : list nat) (a_ended : list bool)
    (b : list Z) (b_len : list nat) (optimal_completion : bool) (a_blank_idx : Z) (k label : nat) : option Z :=
  let? x := load a ((if broadcast then 0 else k) * n_labels + label) in
  let? ended := load a_ended k in
  let? lb := load b_len k in
  let? row := (if negb ended && negb (x =? a_blank_idx)%Z then
      let? n := load a_n k in
      let last_dist := Z.of_nat (n + 1) in
      let? r := row_loop nb k last_row b x lb 1 last_dist in
      Some (last_dist :: r)
    else copy_loop nb k last_row (lb + 1) 0) in
  let? first := load row 0 in
  Some (if optimal_completion then fold_left Z.min row first else last row 0%Z).
(** [NextEditDistanceReduceOp], 6025-6212; [broadcast]: the first dimension of [a] is 1 (6190-6192). *)
Definition next_reduce_op (nb n_labels : nat) (last_row a : list Z) (broadcast : bool) (a_n : list nat) (a_ended : list bool)
    (b : list Z) (b_len : list nat) (optimal_completion : bool) (a_blank_idx : Z) : option (list Z) :=
  rows (fun k => rows (fun label =>
      let? v := calc_result_kernel nb n_labels last_row a broadcast a_n a_ended b b_len optimal_completion a_blank_idx k label in
      Some [v]) n_labels 0) (length b_len) 0.

(** ** Wrappers *)
(** [initial_row] of [edit_distance_via_next_edit_distance_row], returnn/tf/native_op.py 1767, and of
    [EditDistanceTableLayer], returnn/tf/layers/rec.py 8840 *)
Definition initial_rows (n nb : nat) : list Z := concat (repeat (map Z.of_nat (seq 0 (nb + 1))) n).
(** [a[:, i]] *)
Fixpoint column (na i : nat) (a : list Z) (n k : nat) : option (list Z) :=
  match n with O => Some [] | S n' => let? x := load a (k * na + i) in let? r := column na i a n' (k + 1) in Some (x :: r) end.
(** The loop of [edit_distance_via_next_edit_distance_row], 1769-1789: [fuel] more steps from [i] on *)
Fixpoint via_rows (na nb : nat) (a : list Z) (a_len : list nat) (b : list Z) (b_len : list nat) (fuel i : nat) (last_row : list Z)
    : option (list Z) :=
  match fuel with
  | O => Some last_row
  | S fuel' =>
      let? x := column na i a (length a_len) 0 in
      let? row := next_row_op nb last_row x (repeat i (length a_len)) (map (fun l => l <=? i) a_len) b b_len in
      via_rows na nb a a_len b b_len fuel' (i + 1) row
  end.
(** [final_row[:, -1]] and [tf.reduce_min(final_row, axis=1)], 1794-1797 *)
Definition reduce_row (optimal_completion : bool) (row : list Z) : Z :=
  if optimal_completion then fold_left Z.min row (hd 0%Z row) else last row 0%Z.
Fixpoint split_rows (w : nat) (l : list Z) (n : nat) : list (list Z) :=
  match n with O => [] | S n' => firstn w l :: split_rows w (skipn w l) n' end.
(** [edit_distance_via_next_edit_distance_row], 1749-1797 (without [full_row_output]) *)
Definition edit_distance_via_rows (na nb : nat) (a : list Z) (a_len : list nat) (b : list Z) (b_len : list nat)
    (optimal_completion : bool) : option (list Z) :=
  let? final := via_rows na nb a a_len b b_len na 0 (initial_rows (length a_len) nb) in
  Some (map (reduce_row optimal_completion) (split_rows (nb + 1) final (length a_len))).

(** [EditDistanceTableLayer] with [blank_idx], returnn/tf/layers/rec.py 8766-8787 and 8840-8842, for one sequence: the steps
    over the labels [xs] with the flag whether the sequence had ended before.  The state is the row and [source_len]. *)
Fixpoint table_layer (nb : nat) (blank : Z) (b : list Z) (lb : nat) (xs : list (Z * bool)) (row : list Z) (source_len : nat)
    : option (list Z * nat) :=
  match xs with
  | [] => Some (row, source_len)
  | (x, ended) :: r =>
      let mask_flag := ended || (x =? blank)%Z in
      let? row' := next_row_op nb row [x] [source_len] [mask_flag] b [lb] in
      table_layer nb blank b lb r row' (source_len + (if mask_flag then 0 else 1))
  end.
