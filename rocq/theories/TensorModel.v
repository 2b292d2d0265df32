(** Model of elementwise operations on tensors with named dims: /repo/returnn/frontend/_utils.py [bin_op_out_template],
    /repo/returnn/frontend/_backend.py [compare], [combine], /repo/returnn/tensor/_tensor_extra.py [get_out_permutation_to_dims],
    [copy_compatible_to_dims_raw], the shortcuts of /repo/returnn/frontend/math_.py [combine], and the native variant
    /repo/returnn/frontend/_native/tensor_ops.cpp [compareOrCombine], which replaces these functions if it can be compiled.

    An element is an integer: a code of the value in the dtype. An operation on elements is any function. *)
From Verif Require Import Base PySort.
Local Open Scope nat_scope.

(** * Raw tensors: PyTorch, row-major. These are library functions, modelled by their documentation. *)
Definition prod (s : list nat) : nat := fold_right Nat.mul 1 s.
(** the position of an index, and back *)
Fixpoint flat (s i : list nat) : nat :=
  match s, i with
  | n :: s, k :: i => k * prod s + flat s i
  | _, _ => 0
  end.
Fixpoint unflat (s : list nat) (p : nat) : list nat :=
  match s with
  | [] => []
  | n :: s => p / prod s :: unflat s (p mod prod s)
  end.
Record raw := { shape : list nat; data : list Z }.
Definition at_ (r : raw) (i : list nat) : Z := nth (flat (shape r) i) (data r) 0%Z.
Definition tabulate (s : list nat) (f : list nat -> Z) : raw := {| shape := s; data := map (fun p => f (unflat s p)) (seq 0 (prod s)) |}.

Definition inb (x : nat) (l : list nat) : bool := existsb (Nat.eqb x) l.
(** the first position of [x], or the length *)
Fixpoint pos (x : nat) (l : list nat) : nat :=
  match l with
  | [] => 0
  | y :: l => if x =? y then 0 else S (pos x l)
  end.
(** [torch.permute]: axis [k] of the result is axis [p[k]] *)
Definition permute (r : raw) (p : list nat) : res raw :=
  if (length p =? length (shape r)) && forallb (fun a => inb a p) (seq 0 (length (shape r))) then
    Ok (tabulate (map (fun a => nth a (shape r) 0) p) (fun i => at_ r (map (fun a => nth (pos a p) i 0) (seq 0 (length (shape r))))))
  else Err OtherException.
(** [torch.reshape] *)
Definition reshape (r : raw) (s : list nat) : res raw :=
  if prod s =? prod (shape r) then Ok {| shape := s; data := data r |} else Err OtherException.

(** broadcasting: missing axes at the front, and each axis of size 1 *)
Definition pad_shape (n : nat) (s : list nat) : list nat := repeat 1 (n - length s) ++ s.
Fixpoint broadcast_shape (s1 s2 : list nat) : res (list nat) :=
  match s1, s2 with
  | [], [] => Ok []
  | n :: s1, m :: s2 =>
      let* s := broadcast_shape s1 s2 in
      if (n =? m) || (m =? 1) then Ok (n :: s) else if n =? 1 then Ok (m :: s) else Err OtherException
  | _, _ => Err OtherException
  end.
Definition broadcast_index (s i : list nat) : list nat :=
  map (fun '(n, k) => if n =? 1 then 0 else k) (combine s (skipn (length i - length s) i)).
Definition map2 (op : Z -> Z -> Z) (a b : raw) : res raw :=
  let n := Nat.max (length (shape a)) (length (shape b)) in
  let* s := broadcast_shape (pad_shape n (shape a)) (pad_shape n (shape b)) in
  Ok (tabulate s (fun i => op (at_ a (broadcast_index (shape a) i)) (at_ b (broadcast_index (shape b) i)))).

(** * Dims and tensors *)
(** A [Dim] object: [==] compares [d_base] (what [get_same_base] gives, or the other attributes, see C55-C57), [is] compares the
    objects; a copy of a dim can have another [match_priority]. *)
Record dim := { d_base : nat; d_copy : nat; d_prio : Z }.
Definition deq (a b : dim) : bool := d_base a =? d_base b.
Definition same (a b : dim) : bool := (d_base a =? d_base b) && (d_copy a =? d_copy b) && (d_prio a =? d_prio b)%Z.
Definition mem (d : dim) (l : list dim) : bool := existsb (deq d) l.
Definition count (d : dim) (l : list dim) : nat := length (filter (deq d) l).
(** [Tensor]: its dims and the raw tensor. The feature dim and the sparse dim are left out. *)
Record tensor := { dims : list dim; traw : raw }.

(** [get_out_permutation_to_dims], _tensor_extra.py 1180-1230; [None] is -1. First 1191-1199: the candidates for one dim *)
Fixpoint candidates (d : dim) (taken : list nat) (j : nat) (own : list dim) (acc : list nat) : list nat :=
  match own with
  | [] => acc
  | o :: own =>
      if inb j taken then candidates d taken (S j) own acc
      else if same d o then [j]
      else candidates d taken (S j) own (if deq d o then acc ++ [j] else acc)
  end.
(** _tensor_extra.py 1208-1219: the candidate with the highest priority *)
Fixpoint best (own : list dim) (cs : list nat) (st : option (nat * Z * nat)) : option (nat * Z * nat) :=
  match cs with
  | [] => st
  | j :: cs =>
      let p := match nth_error own j with Some o => d_prio o | None => 0%Z end in
      best own cs
        (match st with
         | None => Some (j, p, 1)
         | Some (m, mp, c) => if (mp <? p)%Z then Some (j, p, 1) else if (p =? mp)%Z then Some (m, mp, S c) else Some (m, mp, c)
         end)
  end.
(** _tensor_extra.py 1201-1226 *)
Definition choose (own : list dim) (cs : list nat) : res (option nat) :=
  match cs with
  | [] => Ok None
  | [j] => Ok (Some j)
  | _ => match best own cs None with
         | Some (m, _, c) => if 1 <? c then Err ValueError else Ok (Some m)
         | None => Err AssertionError
         end
  end.
Fixpoint out_permutation_loop (own : list dim) (taken : list nat) (ds : list dim) : res (list (option nat) * list nat) :=
  match ds with
  | [] => Ok ([], taken)
  | d :: ds =>
      let* c := choose own (candidates d taken 0 own []) in
      let* (p, t) := out_permutation_loop own (match c with Some j => j :: taken | None => taken end) ds in
      Ok (c :: p, t)
  end.
(** _tensor_extra.py 1228-1230: [count] is the number of taken axes *)
Definition out_permutation (own ds : list dim) : res (list (option nat)) :=
  let* (p, t) := out_permutation_loop own [] ds in
  let* _ := assert_ (length t =? length own) in
  Ok p.

Definition somes (p : list (option nat)) : list nat := flat_map (fun o => match o with Some j => [j] | None => [] end) p.
Fixpoint is_identity (n : nat) (p : list (option nat)) : bool :=
  match p with
  | [] => true
  | Some j :: p => (j =? n) && is_identity (S n) p
  | None :: _ => false
  end.
(** [copy_compatible_to_dims_raw], _tensor_extra.py 1290-1308 *)
Definition compatible_raw (t : tensor) (ds : list dim) : res raw :=
  let* p := out_permutation (dims t) ds in
  if (length p =? length (dims t)) && is_identity 0 p then Ok (traw t)
  else
    let* r := permute (traw t) (somes p) in
    reshape r (map (fun o => match o with Some j => nth j (shape (traw t)) 0 | None => 1 end) p).

(** _utils.py 94-111: the dims of the result *)
Fixpoint all_dims_loop (a b todo acc : list dim) : list dim :=
  match todo with
  | [] => acc
  | d :: todo =>
      all_dims_loop a b todo
        (if mem d acc then acc
         else if (count d a <=? 1) && (count d b <=? 1) then acc ++ [d]
         else if count d b <=? count d a then acc ++ filter (deq d) a
         else acc ++ filter (deq d) b)
  end.
Definition all_dims (a b : list dim) : list dim := all_dims_loop a b (a ++ b) [].
Definition same_set (a b : list dim) : bool := forallb (fun d => mem d b) a && forallb (fun d => mem d a) b.
(** _utils.py 120-121; without a [dim_order], or with an empty one, nothing is sorted *)
Fixpoint dim_index (order : list dim) (d : dim) : nat :=
  match order with
  | [] => 0
  | o :: order => if deq d o then 0 else S (dim_index order d)
  end.
Definition sorted_dims (order : list dim) (ds : list dim) : list dim := stable_sort_by (fun d => Z.of_nat (dim_index order d)) ds.
Definition order_of (order : option (list dim)) : list dim := match order with Some o => o | None => [] end.

(** torch/frontend/_backend.py 836, 850: [combine_raw], [compare_raw] *)
Definition combine_raw (op : Z -> Z -> Z) (a b : raw) : res raw :=
  let* _ := assert_ ((length (shape a) =? length (shape b)) || (length (shape a) =? 0) || (length (shape b) =? 0)) in
  map2 op a b.
(** [bin_op_out_template], _utils.py 55-134, with [combine] and [compare], frontend/_backend.py 824-873: the type of
    [allow_broadcast_all_sources] is [Optional[bool]] *)
Definition combine_tensors (op : Z -> Z -> Z) (a b : tensor) (allow : option bool) (order : option (list dim)) : res tensor :=
  let all := all_dims (dims a) (dims b) in
  if negb (same_set (dims a) all) && negb (same_set (dims b) all) && negb (match allow with Some true => true | _ => false end) then Err ValueError
  else
    let all := sorted_dims (order_of order) all in
    let* ra := if length (dims a) =? 0 then Ok (traw a) else compatible_raw a all in
    let* rb := if length (dims b) =? 0 then Ok (traw b) else compatible_raw b all in
    let* r := combine_raw op ra rb in
    Ok {| dims := all; traw := r |}.

(** * The native variant *)
(** [_isSameSeqFast], tensor_ops.cpp 188-202 *)
Fixpoint same_seq (a b : list dim) : bool :=
  match a, b with
  | [], [] => true
  | x :: a, y :: b => same x y && same_seq a b
  | _, _ => false
  end.
(** [_isSeqSubsetFast], tensor_ops.cpp 206-224 *)
Fixpoint subset_fast (sub : list dim) (i : nat) (sup : list dim) : option (list (option nat)) :=
  match sup with
  | [] => match sub with [] => Some [] | _ => None end
  | b :: sup =>
      match sub with
      | [] => option_map (cons None) (subset_fast [] i sup)
      | a :: sub' => if same a b then option_map (cons (Some i)) (subset_fast sub' (S i) sup) else option_map (cons None) (subset_fast sub i sup)
      end
  end.
(** [_isSeqSubsetReorderFast], tensor_ops.cpp 229-254 *)
Fixpoint find_fast (d : dim) (taken : list nat) (i : nat) (sub : list dim) : option nat :=
  match sub with
  | [] => None
  | a :: sub => if negb (inb i taken) && same a d then Some i else find_fast d taken (S i) sub
  end.
Fixpoint reorder_loop (sub : list dim) (taken : list nat) (sup : list dim) : list (option nat) * list nat :=
  match sup with
  | [] => ([], taken)
  | b :: sup =>
      let c := find_fast b taken 0 sub in
      let (p, t) := reorder_loop sub (match c with Some i => i :: taken | None => taken end) sup in
      (c :: p, t)
  end.
Definition subset_reorder_fast (sub sup : list dim) : option (list (option nat)) :=
  if length sup <? length sub then None
  else
    let (p, t) := reorder_loop sub [] sup in
    if forallb (fun i => inb i t) (seq 0 (length sub)) then Some p else None.
(** [_getPermutationSupersetToSubset], tensor_ops.cpp 502-577: the last part is the same as in python, but for the exception *)
Definition native_permutation (own ds : list dim) : res (list (option nat)) :=
  match subset_fast own 0 ds with
  | Some p => Ok p
  | None =>
      match subset_reorder_fast own ds with
      | Some p => Ok p
      | None =>
          let* (p, t) := out_permutation_loop own [] ds in
          if length t =? length own then Ok p else Err ValueError
      end
  end.
(** [_permuteAndExtend], tensor_ops.cpp 581-656 *)
Definition code (o : option nat) : Z := match o with Some j => Z.of_nat j | None => -1 end.
Fixpoint need_permute (p : list (option nat)) : bool :=
  match p with
  | x :: (y :: _) as p' => negb (code y =? code x + 1)%Z || need_permute p'
  | _ => false
  end.
Fixpoint extend_shape (p : list (option nat)) (s : list nat) : list nat :=
  match p with
  | [] => []
  | None :: p => 1 :: extend_shape p s
  | Some _ :: p => hd 0 s :: extend_shape p (tl s)
  end.
Definition permute_and_extend (t : tensor) (n : nat) (p : list (option nat)) : res raw :=
  let* r := if need_permute p then permute (traw t) (somes p) else Ok (traw t) in
  if length (dims t) <? n then reshape r (extend_shape p (shape r)) else Ok r.

(** tensor_ops.cpp 1205-1250: the dims of the result; when a dim occurs more often in [b], only the first [bDimsCount] dims of [b] are
    looked at, and there is an error if one is missed *)
Fixpoint native_dims_loop (a b todo acc : list dim) : res (list dim) :=
  match todo with
  | [] => Ok acc
  | d :: todo =>
      let* acc :=
        if mem d acc then Ok acc
        else if (count d a <=? 1) && (count d b <=? 1) then Ok (acc ++ [d])
        else
          let found := filter (deq d) (if count d b <=? count d a then a else firstn (count d b) b) in
          if length found =? Nat.max (count d a) (count d b) then Ok (acc ++ found) else Err OtherException in
      native_dims_loop a b todo acc
  end.
(** [_isTupleSubsetReorderList], tensor_ops.cpp 256-289: the search with [==] starts with [i == subSize], so it finds nothing *)
Definition is_subset_reorder (sub sup : list dim) : bool := match subset_reorder_fast sub sup with Some _ => true | None => false end.
(** [compareOrCombine], tensor_ops.cpp 1017-1345, for two tensors *)
Definition native_combine (op : Z -> Z -> Z) (a b : tensor) (allow : bool) (order : option (list dim)) : res tensor :=
  let order_is ds := match order with None => true | Some o => same_seq ds o end in
  let subset (p : list (option nat)) (b_is_subset : bool) :=
    if b_is_subset then
      let* rb := permute_and_extend b (length (dims a)) p in
      let* r := map2 op (traw a) rb in
      Ok {| dims := dims a; traw := r |}
    else
      let* ra := permute_and_extend a (length (dims b)) p in
      let* r := map2 op ra (traw b) in
      Ok {| dims := dims b; traw := r |} in
  if same_seq (dims a) (dims b) && order_is (dims a) || (length (dims b) =? 0) && order_is (dims a) then
    let* r := map2 op (traw a) (traw b) in
    Ok {| dims := dims a; traw := r |}
  else if (length (dims a) =? 0) && order_is (dims b) then
    let* r := map2 op (traw a) (traw b) in
    Ok {| dims := dims b; traw := r |}
  else
    match (if order_is (dims a) then subset_fast (dims b) 0 (dims a) else None), (if order_is (dims b) then subset_fast (dims a) 0 (dims b) else None) with
    | Some p, _ => subset p true
    | None, Some p => subset p false
    | None, None =>
        match (if order_is (dims a) then subset_reorder_fast (dims b) (dims a) else None), (if order_is (dims b) then subset_reorder_fast (dims a) (dims b) else None) with
        | Some p, _ => subset p true
        | None, Some p => subset p false
        | None, None =>
            let* all := native_dims_loop (dims a) (dims b) (dims a ++ dims b) [] in
            if negb (is_subset_reorder (dims a) all) && negb (is_subset_reorder (dims b) all) && negb allow then Err ValueError
            else
              let all := match order with Some o => sorted_dims o all | None => all end in
              let* pa := native_permutation (dims a) all in
              let* ra := permute_and_extend a (length all) pa in
              let* pb := native_permutation (dims b) all in
              let* rb := permute_and_extend b (length all) pb in
              let* r := map2 op ra rb in
              Ok {| dims := all; traw := r |}
        end
    end.

(** * A tensor and a number: [combine], math_.py 165-213, for tensors of integers *)
Inductive kind := KAdd | KSub | KMul | KTrueDiv | KFloorDiv | KMod | KPow | KMax | KMin | KAnd | KOr | KSqDiff.
Definition of_bool (b : bool) : Z := if b then 1%Z else 0%Z.
Definition truth (x : Z) : bool := negb (x =? 0)%Z.
(** the operations of PyTorch on integers (combine_raw, torch/frontend/_backend.py 841-860); a true division is not called with
    integers in python (math_.py 208-213), and gives floats *)
Definition sem (k : kind) (x y : Z) : res Z :=
  match k with
  | KAdd => Ok (x + y)%Z
  | KSub => Ok (x - y)%Z
  | KMul => Ok (x * y)%Z
  | KTrueDiv => Err ValueError
  | KFloorDiv => if (y =? 0)%Z then Err OtherException else Ok (x / y)%Z
  | KMod => if (y =? 0)%Z then Err OtherException else Ok (x mod y)%Z
  | KPow => if (y <? 0)%Z then Err OtherException else Ok (x ^ y)%Z
  | KMax => Ok (Z.max x y)
  | KMin => Ok (Z.min x y)
  | KAnd => Ok (of_bool (truth x && truth y))
  | KOr => Ok (of_bool (truth x || truth y))
  | KSqDiff => Ok ((x - y) * (x - y))%Z
  end.
(** a tensor of integers, a python number, or a tensor of floats: the quotients of these pairs *)
Inductive outcome := Elements (l : list Z) | Number (n : Z) | Quotients (l : list (Z * Z)).
Definition is_kind (k : kind) (ks : list kind) : bool :=
  existsb (fun k' => match k, k' with
                     | KAdd, KAdd | KSub, KSub | KMul, KMul | KTrueDiv, KTrueDiv | KFloorDiv, KFloorDiv | KMod, KMod
                     | KPow, KPow | KMax, KMax | KMin, KMin | KAnd, KAnd | KOr, KOr | KSqDiff, KSqDiff => true
                     | _, _ => false
                     end) ks.
(** [combine(a, kind, n)]: math_.py 190-198, then 208-213 *)
Definition combine_right (k : kind) (a : list Z) (n : Z) : res outcome :=
  if (n =? 1)%Z && is_kind k [KTrueDiv; KFloorDiv; KPow; KMul] then Ok (Elements a)
  else if (n =? -1)%Z && is_kind k [KTrueDiv; KFloorDiv; KPow; KMul] then Ok (Elements (map Z.opp a))
  else if (n =? 0)%Z && is_kind k [KAdd; KSub] then Ok (Elements a)
  else if truth n && is_kind k [KAnd; KOr] then Ok (Elements a)
  else if is_kind k [KTrueDiv] then Err ValueError
  else let* l := mapM (fun x => sem k x n) a in Ok (Elements l).
(** [combine(n, kind, b)]: math_.py 199-207, then 208-213 *)
Definition combine_left (k : kind) (n : Z) (b : list Z) : res outcome :=
  if (n =? 1)%Z && is_kind k [KPow] then Ok (Number n)
  else if (n =? 1)%Z && is_kind k [KMul] then Ok (Elements b)
  else if (n =? 0)%Z && is_kind k [KAdd; KSub] then Ok (Elements b)
  else if truth n && is_kind k [KAnd; KOr] then Ok (Elements b)
  else if is_kind k [KTrueDiv] then Err ValueError
  else let* l := mapM (fun y => sem k n y) b in Ok (Elements l).
(** the native variant: tensor_ops.cpp 1029-1075, without the shortcuts and the check for integers *)
Definition native_right (k : kind) (a : list Z) (n : Z) : res outcome :=
  if is_kind k [KTrueDiv] then Ok (Quotients (map (fun x => (x, n)) a)) else let* l := mapM (fun x => sem k x n) a in Ok (Elements l).
Definition native_left (k : kind) (n : Z) (b : list Z) : res outcome :=
  if is_kind k [KTrueDiv] then Ok (Quotients (map (fun y => (n, y)) b)) else let* l := mapM (fun y => sem k n y) b in Ok (Elements l).
