(** Model of operations that merge, split and join axes of tensors with named dims: /repo/returnn/torch/frontend/_backend.py
    [merge_dims], [split_dims], [reshape], [split], [concat], [top_k] for several axes, and
    /repo/returnn/tensor/_tensor_extra.py [copy_transpose]. The feature dim and the sparse dim are left out.

    [size d] is [d.get_dim_value()] for a dim with this name. *)
From Verif Require Import Base TensorModel MatmulModel.
Local Open Scope nat_scope.

(** [copy_transpose] with dims, _tensor_extra.py 656-671, with [copy_compatible_to_dims], 1233-1251 *)
Definition transpose_to (t : tensor) (ds : list dim) : res tensor :=
  let* _ := assert_ (length ds =? length (dims t)) in
  let* r := compatible_raw t ds in
  Ok {| dims := ds; traw := r |}.
(** [copy_transpose] with axes, 665-668 *)
Definition transpose_axes (t : tensor) (p : list nat) : res tensor :=
  let* _ := assert_ (length p =? length (dims t)) in
  let* _ := assert_ (forallb (fun a => inb a p) (seq 0 (length p)) && forallb (fun a => a <? length p) p) in
  let* r := permute (traw t) p in
  Ok {| dims := map (fun i => nth i (dims t) {| d_base := 0; d_copy := 0; d_prio := 0 |}) p; traw := r |}.

(** [list.index], [tuple.index] of a dim *)
Definition index_of (ds : list dim) (d : dim) : res nat := if mem d ds then Ok (dim_index ds d) else Err ValueError.
Definition shape_of (size : nat -> nat) (ds : list dim) : list nat := map (fun d => size (d_base d)) ds.

(** [merge_dims], _backend.py 261-292 *)
Definition merge_dims (size : nat -> nat) (t : tensor) (ds : list dim) (out : dim) : res tensor :=
  let* _ := assert_ (2 <=? length ds) in
  let* is_ := mapM (index_of (dims t)) ds in
  let first := fold_right Nat.min (length (dims t)) is_ in
  let pre := firstn first (dims t) in
  let post := filter (fun d => negb (mem d ds) && negb (mem d pre)) (dims t) in
  let* t := transpose_to t (pre ++ ds ++ post) in
  let ods := pre ++ [out] ++ post in
  let* r := reshape (traw t) (shape_of size ods) in
  Ok {| dims := ods; traw := r |}.

(** [split_dims], 295-315 *)
Definition split_dims (size : nat -> nat) (t : tensor) (axis : dim) (ds : list dim) : res tensor :=
  let* i := axis_of (dims t) axis in
  let ods := firstn i (dims t) ++ ds ++ skipn (S i) (dims t) in
  let* r := reshape (traw t) (shape_of size ods) in
  Ok {| dims := ods; traw := r |}.

(** [reshape], 318-335; popping the axes from the last one on leaves the other ones *)
Definition reshape_dims (size : nat -> nat) (t : tensor) (ins outs : list dim) : res tensor :=
  let* axes := mapM (axis_of (dims t)) ins in
  let* _ := assert_ (length (nodup Nat.eq_dec axes) =? length axes) in
  let* first := match axes with [] => Err ValueError | a :: l => Ok (fold_right Nat.min a l) end in
  let rest := filter (fun i => negb (inb i axes)) (seq 0 (length (dims t))) in
  let get i := nth i (dims t) {| d_base := 0; d_copy := 0; d_prio := 0 |} in
  let ods := firstn first (map get rest) ++ outs ++ skipn first (map get rest) in
  let* t := transpose_axes t (firstn first rest ++ axes ++ skipn first rest) in
  let* r := reshape (traw t) (shape_of size ods) in
  Ok {| dims := ods; traw := r |}.

(** [torch.split] and [torch.cat] *)
Definition replace_at (i : nat) (l : list nat) (x : nat) : list nat := firstn i l ++ [x] ++ skipn (S i) l.
Definition narrow (r : raw) (axis start n : nat) : raw :=
  tabulate (replace_at axis (shape r) n) (fun i => at_ r (replace_at axis i (start + nth axis i 0))).
Fixpoint split_raw (r : raw) (axis start : nat) (ns : list nat) : list raw :=
  match ns with
  | [] => []
  | n :: ns => narrow r axis start n :: split_raw r axis (start + n) ns
  end.
(** the part with this index, and the index in it *)
Fixpoint part_of (k : nat) (ns : list nat) (j : nat) : nat * nat :=
  match ns with
  | [] => (j, k)
  | n :: ns => if k <? n then (j, k) else part_of (k - n) ns (S j)
  end.
Definition cat_raw (rs : list raw) (axis : nat) : res raw :=
  match rs with
  | [] => Err OtherException
  | r0 :: _ =>
      let ns := map (fun r => nth axis (shape r) 0) rs in
      if forallb (fun r => same_nats (replace_at axis (shape r) 0) (replace_at axis (shape r0) 0)) rs then
        Ok (tabulate (replace_at axis (shape r0) (fold_right Nat.add 0 ns))
              (fun i => let (j, k) := part_of (nth axis i 0) ns 0 in at_ (nth j rs r0) (replace_at axis i k)))
      else Err OtherException
  end.
Definition replace_dim_at (i : nat) (l : list dim) (x : dim) : list dim := firstn i l ++ [x] ++ skipn (S i) l.
(** [split], 338-353: the sizes must add up to the size of the axis *)
Definition split (size : nat -> nat) (t : tensor) (axis : dim) (outs : list dim) : res (list tensor) :=
  let* i := axis_of (dims t) axis in
  let ns := map (fun d => size (d_base d)) outs in
  if fold_right Nat.add 0 ns =? nth i (shape (traw t)) 0 then
    Ok (map (fun '(d, r) => {| dims := replace_dim_at i (dims t) d; traw := r |}) (combine outs (split_raw (traw t) i 0 ns)))
  else Err OtherException.
(** [concat] without broadcasting, 388-393, 410-427 *)
Fixpoint remove_dim (d : dim) (l : list dim) : list dim :=
  match l with
  | [] => []
  | x :: l => if deq x d then l else x :: remove_dim d l
  end.
Definition concat_tensors (sources : list (tensor * dim)) (out : dim) : res tensor :=
  match sources with
  | [] => Err IndexError
  | (t0, d0) :: _ =>
      let* axis := axis_of (dims t0) d0 in
      let others := remove_dim d0 (dims t0) in
      let templ d := firstn axis others ++ [d] ++ skipn axis others in
      let* rs := mapM (fun '(t, d) =>
        let* _ := assert_ (same_set (templ d) (dims t)) in
        let* t := transpose_to t (templ d) in
        Ok (traw t)) sources in
      let* r := cat_raw rs axis in
      Ok {| dims := templ out; traw := r |}
  end.

(** * [top_k] for a list of axes, 1552-1579, without masks *)
(** [torch.topk] on the last axis; [topk row k] are the positions it picks in a row *)
Definition last_rows (r : raw) (n : nat) (ib : list nat) : list Z := map (fun p => at_ r (ib ++ [p])) (seq 0 n).
Definition topk_raw (topk : list Z -> nat -> list nat) (r : raw) (n k : nat) : res (raw * raw) :=
  if k <=? n then
    let picked i := nth (last i 0) (topk (last_rows r n (removelast i)) k) 0 in
    let s := removelast (shape r) ++ [k] in
    Ok (tabulate s (fun i => at_ r (removelast i ++ [picked i])), tabulate s (fun i => Z.of_nat (picked i)))
  else Err OtherException.
(** 1566-1575: the indices of the axes, from the last one on; [a.dimension] is None for a dynamic dim *)
Fixpoint decode_loop (r : raw) (rev_axes : list (option nat)) : res (list raw) :=
  match rev_axes with
  | [] => Ok []
  | None :: _ => Err TypeError
  | Some n :: rest =>
      let* l := decode_loop {| shape := shape r; data := map (fun x => (x / Z.of_nat n)%Z) (data r) |} rest in
      Ok (l ++ [{| shape := shape r; data := map (fun x => (x mod Z.of_nat n)%Z) (data r) |}])
  end.
(** [dimension d] is [d.dimension], [k] is the size of [k_dim] *)
Definition top_k (topk : list Z -> nat -> list nat) (dimension : dim -> option nat) (t : tensor) (axes : list dim) (k : nat) (k_dim : dim) : res (tensor * list tensor) :=
  let rest := filter (fun d => negb (mem d axes)) (dims t) in
  let* t := transpose_to t (rest ++ axes) in
  match axes with
  | [] => Err IndexError
  | _ =>
      let s := shape (traw t) in
      let m := length s - length axes in
      let n := prod (skipn m s) in
      let* (values, indices) := topk_raw topk {| shape := firstn m s ++ [n]; data := data (traw t) |} n k in
      let* l := decode_loop indices (rev (map dimension axes)) in
      Ok ({| dims := rest ++ [k_dim]; traw := values |}, map (fun r => {| dims := rest ++ [k_dim]; traw := r |}) l)
  end.
