(** The native operations [Chunking] and [UnChunking], returnn/native_op.py 2254-2580, and their wrappers with the
    gradients, returnn/tf/native_op.py 1283-1367.

    A tensor is a list over the time of lists over the batch, with exact numbers.  Simplifications: one feature (the
    loops over [z] do the same for each one), the index is a boolean (C: [> 0.1]), the parameters are integers (C: float32).
    Every access is checked; a failing assertion and an access outside of a tensor give [None].  Every iteration of a
    kernel writes its own cell, so that the order of the iterations does not matter. *)
From Coq Require Import QArith Qcanon.
From Verif Require Import Base.
Local Open Scope nat_scope.

Definition obind {A B} (x : option A) (f : A -> option B) : option B := match x with Some v => f v | None => None end.
Notation "'let?' x := e 'in' f" := (obind e (fun x => f)) (at level 200, x name, e at level 100, f at level 200).
Definition require (c : bool) : option unit := if c then Some tt else None.
Definition get2 {A} (t : list (list A)) (x y : nat) : option A := let? r := nth_error t x in nth_error r y.
Fixpoint mapo {A B} (f : A -> option B) (l : list A) : option (list B) :=
  match l with [] => Some [] | x :: r => let? v := f x in let? vs := mapo f r in Some (v :: vs) end.
(** All cells [x < nx], [y < ny], each one by an iteration of the loop of a kernel *)
Definition grid {A} (f : nat -> nat -> option A) (nx ny : nat) : option (list (list A)) :=
  mapo (fun x => mapo (fun y => f x y) (seq 0 ny)) (seq 0 nx).
Definition qnat (n : nat) : Qc := Q2Qc (inject_Z (Z.of_nat n)).

(** [n_chunks], returnn/tf/native_op.py 1298; [max(_, 0)] is the difference of naturals here *)
Definition n_chunks (n_time size step : nat) : nat := (n_time + step - 1 - size) / step + 1.

(** The assertions at the start of both kernels, returnn/native_op.py 2306-2314 and 2458-2466: [big] is the number of chunked
    sequences, [batch] the one of the sequences; the result is the number of chunks. *)
Definition check_dims (big batch size0 size step n_time : nat) : option nat :=
  let? _ := require (negb (batch =? 0) && (big mod batch =? 0)) in
  let n := big / batch in
  let? _ := require (0 <? n) in
  let? _ := require (size =? size0) in
  let? _ := require (0 <? step) in
  let? _ := require (n_time <=? step * (n - 1) + size) in
  let? _ := require (step * (n - 1) <? n_time) in
  Some n.

(** One iteration of the loop of [copy_kernel], 2324-2344: the value and the index of a chunked frame *)
Definition copy_cell (x : list (list Qc)) (index : list (list bool)) (n_time n step out_x out_y : nat) : option (Qc * bool) :=
  let chunk_idx := out_y mod n in
  let in_y := out_y / n in
  let in_x := step * chunk_idx + out_x in
  let? valid := (if in_x <? n_time then get2 index in_x in_y else Some false) in
  if valid then let? v := get2 x in_x in_y in Some (v, true)
  else Some (0%Qc, false).
(** [chunk], returnn/tf/native_op.py 1283-1304 with [copy_kernel], returnn/native_op.py 2299-2347.  The tensor [x] has
    [n_time] frames of [batch] entries. *)
Definition chunk (n_time batch : nat) (x : list (list Qc)) (index : list (list bool)) (size step : nat)
    : option (list (list Qc) * list (list bool)) :=
  let? _ := require (negb (step =? 0)) in
  let big := batch * n_chunks n_time size step in
  let? n := check_dims big batch size size step n_time in
  let? cells := grid (copy_cell x index n_time n step) size big in
  Some (map (map fst) cells, map (map snd) cells).

(** The loop over the chunks, 2505-2516: [m] more chunks from [chunk_idx] on; the sum and the count *)
Fixpoint sum_chunks (x : list (list Qc)) (index : list (list bool)) (size step n out_x out_y m chunk_idx : nat) (acc : Qc) (c : nat)
    : option (Qc * nat) :=
  match m with
  | O => Some (acc, c)
  | S m' =>
      let in_y := out_y * n + chunk_idx in
      let? _ := require (step * chunk_idx <=? out_x) in
      let in_x := out_x - step * chunk_idx in
      let? _ := require (in_x <? size) in
      let? valid := get2 index in_x in_y in
      if valid : bool then
        let? v := get2 x in_x in_y in
        sum_chunks x index size step n out_x out_y m' (chunk_idx + 1) (acc + v)%Qc (c + 1)
      else sum_chunks x index size step n out_x out_y m' (chunk_idx + 1) acc c
  end.
(** One iteration of the loop of [unchunk_kernel], 2476-2526: the value, the index and the factor of a frame.
    [chunk_idx_start] is a division of C, which rounds towards zero, and then not negative: 0 for a negative dividend. *)
Definition unchunk_cell (x : list (list Qc)) (index : list (list bool)) (size step n out_x out_y : nat) : option (Qc * bool * Qc) :=
  let chunk_idx_start := (out_x + step - size) / step in
  let chunk_idx_end := Nat.min (out_x / step + 1) n in
  let? _ := require (chunk_idx_start <? chunk_idx_end) in
  let? r := sum_chunks x index size step n out_x out_y (chunk_idx_end - chunk_idx_start) chunk_idx_start 0%Qc 0 in
  let '(acc, c) := r in
  if 0 <? c then Some ((acc / qnat c)%Qc, true, (1 / qnat c)%Qc)
  else Some (acc, false, 1%Qc).
(** [unchunk], returnn/tf/native_op.py 1331-1350 with [unchunk_kernel], returnn/native_op.py 2450-2530.  The tensor [x] has
    [big] entries per frame. *)
Definition unchunk (big : nat) (x : list (list Qc)) (index : list (list bool)) (size step n_time batch : nat)
    : option (list (list Qc) * list (list bool) * list (list Qc)) :=
  let? n := check_dims big batch (length x) size step n_time in
  let? cells := grid (unchunk_cell x index size step n) n_time batch in
  Some (map (map (fun c => fst (fst c))) cells, map (map (fun c => snd (fst c))) cells, map (map snd) cells).

Definition zip_with2 {A B C} (f : A -> B -> C) (a : list (list A)) (b : list (list B)) : list (list C) :=
  map (fun ab => map (fun xy => f (fst xy) (snd xy)) (combine (fst ab) (snd ab))) (combine a b).
(** [_chunk_grad], returnn/tf/native_op.py 1307-1328: [oindex] is the second output of the operation *)
Definition chunk_grad (n_time batch : nat) (oindex : list (list bool)) (out_grad : list (list Qc)) (size step : nat) : option (list (list Qc)) :=
  let? r := unchunk (batch * n_chunks n_time size step) out_grad oindex size step n_time batch in
  let '(x_grad, _, factors) := r in
  Some (zip_with2 Qcdiv x_grad factors).
(** [_unchunk_grad], 1353-1367: [oindex] and [factors] are outputs of the operation *)
Definition unchunk_grad (n_time batch : nat) (oindex : list (list bool)) (factors out_grad : list (list Qc)) (size step : nat) : option (list (list Qc)) :=
  let? r := chunk n_time batch (zip_with2 Qcmult out_grad factors) oindex size step in
  Some (fst r).

(** [naive_chunk_start_frames], returnn/native_op.py 2396-2408; [None] when the loop does not end within [fuel] *)
Fixpoint naive_starts (fuel n_time size step t : nat) : option (list nat) :=
  match fuel with
  | O => None
  | S fuel' => if n_time <=? t + size then Some [t] else let? r := naive_starts fuel' n_time size step (t + step) in Some (t :: r)
  end.
