(** Model of the search and schedule helpers: /repo/returnn/util/basic.py:4298-4317, /repo/returnn/util/math.py:22-149.

    Numbers are integers in the search and rational numbers in the schedules; no rounding of floats. *)
From Coq Require Import QArith.
From Verif Require Import Base PyDict LrModel.
Local Open Scope nat_scope. Local Open Scope list_scope.
Local Open Scope Z_scope.

(** [binary_search_any(cmp, low, high)]: /repo/returnn/util/basic.py:4298-4317. Also gives the positions where [cmp] was called. *)
Fixpoint binary_search (fuel : nat) (cmp : Z -> Z) (low high : Z) : res (Z * list Z) :=
  match fuel with
  | O => Err OutOfFuel
  | S fuel' =>
      if low <? high then
        let mid := (low + high) / 2 in
        let r := cmp mid in
        if r <? 0 then (let* x := binary_search fuel' cmp (mid + 1) high in Ok (fst x, mid :: snd x))
        else if r >? 0 then (let* x := binary_search fuel' cmp low mid in Ok (fst x, mid :: snd x))
        else Ok (mid, [mid])
      else Ok (low, [])
  end.
Definition binary_search_any (cmp : Z -> Z) (low high : Z) : res (Z * list Z) := binary_search (S (Z.to_nat (high - low))) cmp low high.

(** python's [bisect.bisect_left(keys, x)] *)
Fixpoint bisect_loop (fuel : nat) (keys : list Q) (x : Q) (lo hi : nat) : nat :=
  match fuel with
  | O => lo
  | S fuel' =>
      if (lo <? hi)%nat then
        let mid := ((lo + hi) / 2)%nat in
        if Qlt_bool (nth mid keys 0%Q) x then bisect_loop fuel' keys x (mid + 1) hi else bisect_loop fuel' keys x lo mid
      else lo
  end.
Definition bisect_left (keys : list Q) (x : Q) : nat := bisect_loop (S (length keys)) keys x 0 (length keys).

(** python [sorted(values.items())] resp. [sorted(values.keys())]; the keys of a dictionary differ, so only they matter for the order. *)
Fixpoint insert_item {V} (kv : Q * V) (l : list (Q * V)) : list (Q * V) :=
  match l with [] => [kv] | kv' :: l' => if Qlt_bool (fst kv') (fst kv) then kv' :: insert_item kv l' else kv :: l end.
Fixpoint sort_items {V} (l : list (Q * V)) : list (Q * V) := match l with [] => [] | kv :: l' => insert_item kv (sort_items l') end.

(** [StepFunction.__call__]: /repo/returnn/util/math.py:127-149. The keys are taken with their values instead of looking the value up again. *)
Definition step_call {V} (values : list (Q * V)) (x : Q) : res V :=
  let items := sort_items values in
  let keys := map fst items in
  let* _ := assert_ (match keys with [] => false | _ => true end) in
  let i := bisect_left keys x in
  let i := if (length keys <=? i)%nat || ((0 <? i)%nat && Qle_bool (x - nth (i - 1) keys 0%Q) (nth i keys 0%Q - x)) then (i - 1)%nat else i in
  match nth_error items i with Some (_, v) => Ok v | None => Err IndexError end.

(** [PiecewiseLinear.__call__]: /repo/returnn/util/math.py:66-82, [numpy.interp] for one number: outside of the keys the value at the end, at a key its value, otherwise linear between the neighbours. [numpy.interp] raises ValueError without points. *)
Fixpoint interp_loop (p : Q * Q) (l : list (Q * Q)) (x : Q) : Q :=
  match l with
  | [] => snd p
  | p' :: l' =>
      if Qlt_bool x (fst p') then
        (if Qeq_bool x (fst p) then snd p else (snd p' - snd p) / (fst p' - fst p) * (x - fst p) + snd p)%Q
      else interp_loop p' l' x
  end.
Definition linear_call (values : list (Q * Q)) (x : Q) : res Q :=
  match sort_items values with
  | [] => Err ValueError
  | p :: l => Ok (if Qlt_bool x (fst p) then snd p else interp_loop p l x)
  end.
