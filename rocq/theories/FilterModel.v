(** Model of the filter by the mean sequence length: /repo/returnn/datasets/meta.py:38-130 ([EpochWiseFilter]).

    The mean is an exact rational number. [opts] has only the option "max_mean_len" (others are an error at the end); 0 and None switch it off. *)
From Coq Require Import QArith.
From Verif Require Import Base LrModel SearchModel.
Local Open Scope nat_scope. Local Open Scope list_scope.
Local Open Scope Z_scope.

(** python [sorted] of (length, index) pairs *)
Definition zpair_lt (a b : Z * Z) : bool := (fst a <? fst b) || ((fst a =? fst b) && (snd a <? snd b)).
Fixpoint insert_len (x : Z * Z) (l : list (Z * Z)) : list (Z * Z) :=
  match l with [] => [x] | y :: l' => if zpair_lt y x then y :: insert_len x l' else x :: l end.
Fixpoint sort_lens (l : list (Z * Z)) : list (Z * Z) := match l with [] => [] | x :: l' => insert_len x (sort_lens l') end.
Definition sum_lens (l : list (Z * Z)) : Z := fold_right (fun p s => fst p + s) 0 l.
(** the sign of [numpy.mean(lens_and_seqs[:num, 0]) - max_mean_len], for num >= 1 *)
Definition sign_of (c : comparison) : Z := match c with Lt => -1 | Eq => 0 | Gt => 1 end.
Definition cmp_mean (sorted : list (Z * Z)) (max_mean : Q) (num : Z) : Z :=
  let part := firstn (Z.to_nat num) sorted in
  sign_of (inject_Z (sum_lens part) / inject_Z (Z.of_nat (length part)) ?= max_mean)%Q.
Definition memz (x : Z) (l : list Z) : bool := existsb (Z.eqb x) l.

(** [filter_epoch]: meta.py:53-96. Without sequences [numpy.array([])] has only one axis, and [[:num, 1]] raises IndexError. *)
Definition filter_epoch (max_mean_len : option Q) (seq_order : list Z) (get_seq_len : Z -> Z) : res (list Z) :=
  match max_mean_len with
  | None => Ok seq_order
  | Some m =>
      if Qeq_bool m 0 then Ok seq_order
      else
        let sorted := sort_lens (map (fun i => (get_seq_len i, i)) seq_order) in
        match sorted with
        | [] => Err IndexError
        | _ =>
            let* best := binary_search_any (cmp_mean sorted m) 1 (Z.of_nat (length sorted) + 1) in
            let selected := map snd (firstn (Z.to_nat (fst best)) sorted) in
            Ok (filter (fun i => memz i selected) seq_order)
        end
  end.

(** [(ep_start, ep_end)] *)
Definition epochs_key := (option Z * option Z)%type.
(** python [a < b] for such tuples: compares the first components that differ; None and a number cannot be compared. *)
Definition opt_eqb (a b : option Z) : bool := match a, b with None, None => true | Some x, Some y => x =? y | _, _ => false end.
Definition opt_lt (a b : option Z) : res bool := match a, b with Some x, Some y => Ok (x <? y) | _, _ => Err TypeError end.
Definition key_lt (a b : epochs_key) : res bool :=
  if opt_eqb (fst a) (fst b) then (if opt_eqb (snd a) (snd b) then Ok false else opt_lt (snd a) (snd b)) else opt_lt (fst a) (fst b).
(** [sorted(self.epochs_opts.items())], by insertion: with three or more entries python may compare other pairs. *)
Fixpoint insert_key {V} (x : epochs_key * V) (l : list (epochs_key * V)) : res (list (epochs_key * V)) :=
  match l with
  | [] => Ok [x]
  | y :: l' => let* b := key_lt (fst y) (fst x) in if b then (let* r := insert_key x l' in Ok (y :: r)) else Ok (x :: l)
  end.
Fixpoint sort_keys {V} (l : list (epochs_key * V)) : res (list (epochs_key * V)) :=
  match l with [] => Ok [] | x :: l' => let* s := sort_keys l' in insert_key x s end.
Definition maxsize : Z := 2 ^ 63 - 1.
(** [filter]: meta.py:98-130; [epochs_opts] gives the [max_mean_len] for the epochs. *)
Fixpoint filter_loop (l : list (epochs_key * option Q)) (epoch : Z) (seq_order : list Z) (get_seq_len : Z -> Z) : res (list Z) :=
  match l with
  | [] => Ok seq_order
  | ((s, e), m) :: l' =>
      let s := match s with None => 1 | Some s => s end in
      let e := match e with None => maxsize | Some e => if e =? -1 then maxsize else e end in
      let* _ := assert_ ((1 <=? s) && (s <=? e)) in
      let* o := (if (s <=? epoch) && (epoch <=? e) then filter_epoch m seq_order get_seq_len else Ok seq_order) in
      filter_loop l' epoch o get_seq_len
  end.
Definition epoch_filter (opts : list (epochs_key * option Q)) (epoch : option Z) (seq_order : list Z) (get_seq_len : Z -> Z) : res (list Z) :=
  match epoch with None => Ok seq_order | Some ep => let* l := sort_keys opts in filter_loop l ep seq_order get_seq_len end.
