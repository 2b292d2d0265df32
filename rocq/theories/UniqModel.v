(** Model of some list helpers: /repo/returnn/util/basic.py:1390-1410 ([find_ranges]), 1591-1643 ([uniq], [uniq_generic], [slice_pad_zeros]). *)
From Verif Require Import Base.
Local Open Scope Z_scope.

(** [uniq] for an integer array; [m] is the number of values of the dtype (the difference wraps around). basic.py:1591-1603: keep the entries where the difference to the previous one is not zero; [ones_like] for the first. *)
Fixpoint uniq_from (m prev : Z) (l : list Z) : list Z :=
  match l with [] => [] | x :: l' => if (x - prev) mod m =? 0 then uniq_from m x l' else x :: uniq_from m x l' end.
Definition uniq (m : Z) (l : list Z) : list Z := match l with [] => [] | x :: l' => x :: uniq_from m x l' end.
(** basic.py:1606-1623 *)
Definition visited_has (x : Z) (l : list Z) : bool := existsb (Z.eqb x) l.
Fixpoint uniq_generic_loop (visited : list Z) (l : list Z) : list Z :=
  match l with [] => [] | x :: l' => if visited_has x visited then uniq_generic_loop visited l' else x :: uniq_generic_loop (x :: visited) l' end.
Definition uniq_generic (l : list Z) : list Z := uniq_generic_loop [] l.

(** basic.py:1390-1410; [done] are the finished ranges, [cur] the last one. *)
Fixpoint ranges_loop (ls : list Z) (done : list (Z * Z)) (cur : Z * Z) : res (list (Z * Z)) :=
  match ls with
  | [] => Ok (done ++ [cur])%list
  | k :: ls' =>
      let* _ := assert_ (k >=? snd cur) in
      if k =? snd cur then ranges_loop ls' done (fst cur, k + 1) else ranges_loop ls' (done ++ [cur]) (k, k + 1)
  end.
Definition find_ranges (ls : list Z) : res (list (Z * Z)) := match ls with [] => Ok [] | k :: _ => ranges_loop ls [] (k, k) end.

(** basic.py:1626-1643, on the first axis; [zero] is a frame of zeros. [np.zeros] with a negative size raises ValueError. *)
Definition slice_pad_zeros {A} (zero : A) (x : list A) (begin_ end_ : Z) : res (list A) :=
  let n := Z.of_nat (length x) in
  if (0 <=? begin_) && (begin_ >=? n) then (if end_ - begin_ <? 0 then Err ValueError else Ok (repeat zero (Z.to_nat (end_ - begin_))))
  else
    let pad_left := if begin_ <? 0 then - begin_ else 0 in
    let b := if begin_ <? 0 then 0 else begin_ in
    let* _ := assert_ (end_ >=? b) in
    let pad_right := if end_ >? n then end_ - n else 0 in
    let e := if end_ >? n then n else end_ in
    Ok (repeat zero (Z.to_nat pad_left) ++ pyslice x (Z.to_nat b) (Z.to_nat e) ++ repeat zero (Z.to_nat pad_right))%list.
