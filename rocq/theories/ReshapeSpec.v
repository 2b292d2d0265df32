(** What merging, splitting and joining of axes should give. *)
From Verif Require Import Base TensorModel TensorSpec MatmulSpec.
Local Open Scope nat_scope.

(** The sizes of dims, and the position of their indices, row by row: the last dim is the fastest. *)
Definition sizes (size : nat -> nat) (ds : list dim) : list nat := map size (bases ds).
Fixpoint position (size : nat -> nat) (ds : list dim) (env : nat -> nat) (before : nat) : nat :=
  match ds with
  | [] => before
  | d :: ds => position size ds env (before * size (d_base d) + env (d_base d))
  end.
(** The same entries under the same names. *)
Definition same_entries (size : nat -> nat) (a b : tensor) : Prop :=
  Permutation (bases (dims a)) (bases (dims b)) /\ forall env, inside size env (dims a) -> value a env = value b env.
(** [outs] is where the first of [ins] was, the others of [ins] are not there anymore. *)
Fixpoint instead (ins outs l : list dim) : list dim :=
  match l with
  | [] => []
  | x :: l => if mem x ins then outs ++ filter (fun d => negb (mem d ins)) l else x :: instead ins outs l
  end.
(** [outs] instead of [ins]: the entries are in the same order, all other dims stay. *)
Definition reshaped (size : nat -> nat) (t : tensor) (ins outs : list dim) (r : tensor) : Prop :=
  well size r /\
  dims r = instead ins outs (dims t) /\
  forall e e', inside size e (dims t) -> inside size e' (dims r) -> (forall c, ~ In c (bases ins) -> ~ In c (bases outs) -> e c = e' c) ->
    position size ins e 0 = position size outs e' 0 -> value r e' = value t e.
(** [ins] are dims of [t] and [outs] can be put there instead: they are new, or among [ins], and there are as many entries. *)
Definition replaceable (size : nat -> nat) (t : tensor) (ins outs : list dim) : Prop :=
  NoDup (bases ins) /\ incl (bases ins) (bases (dims t)) /\ ins <> [] /\ NoDup (bases outs) /\
  (forall c, In c (bases outs) -> In c (bases (dims t)) -> In c (bases ins)) /\ prod (sizes size ins) = prod (sizes size outs).

(** * Parts of a tensor *)
(** The names of all dims but [d]. *)
Definition other_names (t : tensor) (d : dim) : list nat := filter (fun c => negb (c =? d_base d)) (bases (dims t)).
Definition total_size (size : nat -> nat) (ds : list dim) : nat := fold_right Nat.add 0 (sizes size ds).
(** [part] has the entries of [t] from index [start] of [axis] on, [d] is its axis. *)
Definition a_part (size : nat -> nat) (t : tensor) (axis : dim) (start : nat) (part : tensor) (d : dim) : Prop :=
  forall env, inside size env (dims part) -> value part env = value t (with_index env (d_base axis) (start + env (d_base d))).
(** The parts are one after the other in [t]. *)
Definition joined (size : nat -> nat) (t : tensor) (axis : dim) (parts : list (tensor * dim)) : Prop :=
  size (d_base axis) = total_size size (map snd parts) /\
  forall j part d, nth_error parts j = Some (part, d) -> a_part size t axis (total_size size (firstn j (map snd parts))) part d.
(** All sources have the same dims but for the one along which they are joined. *)
Definition joinable (size : nat -> nat) (t0 : tensor) (d0 : dim) (sources : list (tensor * dim)) : Prop :=
  Forall (fun '(t, d) => well size t /\ In (d_base d) (bases (dims t)) /\ Permutation (other_names t d) (other_names t0 d0)) sources.

(** * The largest entries *)
(** [torch.topk]: the positions of [k] largest entries, the largest first *)
Definition topk_contract (topk : list Z -> nat -> list nat) : Prop :=
  forall row k, k <= length row ->
    length (topk row k) = k /\ NoDup (topk row k) /\ (forall p, In p (topk row k) -> p < length row) /\
    (forall p q, In p (topk row k) -> q < length row -> ~ In q (topk row k) -> (nth q row 0 <= nth p row 0)%Z) /\
    (forall i j, i <= j -> j < k -> (nth (nth j (topk row k) 0%nat) row 0 <= nth (nth i (topk row k) 0%nat) row 0)%Z).
(** The indices at rank [j], in the order of the axes, where the other dims have the indices in [env]. *)
Definition indices_at (indices : list tensor) (k_dim : dim) (env : nat -> nat) (j : nat) : list nat :=
  map (fun t => Z.to_nat (value t (with_index env (d_base k_dim) j))) indices.
(** The entry of [t] where the dims [ds] have the indices [l]. *)
Fixpoint with_indices (env : nat -> nat) (ds : list dim) (l : list nat) : nat -> nat :=
  match ds, l with
  | d :: ds, x :: l => with_index (with_indices env ds l) (d_base d) x
  | _, _ => env
  end.
Definition largest (size : nat -> nat) (t : tensor) (axes : list dim) (k_dim : dim) (values : tensor) (indices : list tensor) : Prop :=
  let k := size (d_base k_dim) in
  let rest := filter (fun d => negb (mem d axes)) (dims t) in
  well size values /\ dims values = rest ++ [k_dim] /\ length indices = length axes /\ Forall (fun r => well size r /\ dims r = rest ++ [k_dim]) indices /\
  forall env, inside size env rest ->
    let at_rank j := value values (with_index env (d_base k_dim) j) in
    let place j := indices_at indices k_dim env j in
    (* the indices are those of the values *)
    (forall j, j < k -> Forall2 lt (place j) (sizes size axes) /\ at_rank j = value t (with_indices env axes (place j))) /\
    (* sorted, each entry once, and all others are not larger *)
    (forall i j, i <= j -> j < k -> (at_rank j <= at_rank i)%Z) /\
    (forall i j, i < j -> j < k -> place i <> place j) /\
    (forall l, Forall2 lt l (sizes size axes) -> (forall j, j < k -> place j <> l) -> forall j, j < k -> (value t (with_indices env axes l) <= at_rank j)%Z).
