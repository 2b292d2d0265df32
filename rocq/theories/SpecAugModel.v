(** SpecAugment, returnn/frontend/audio/specaugment.py, on a padded batch [batch, time, feature] with the torch backend.

    The input is a list of sequences, each one a list of frames (padded to the same number), each one a list of numbers; the dims
    are in this order. The random numbers are inputs.  A batch without sequences gives an error in the maximum of the
    numbers of masks. *)
From Verif Require Import Base.

(** Map with the index *)
Definition mapi {A B} (f : nat -> A -> B) (l : list A) : list B := map (fun p => f (fst p) (snd p)) (combine (seq 0 (length l)) l).

(** The random numbers of one [random_mask], specaugment.py 105, 108, 162: any numbers for the number of masks of each sequence;
    the order of the positions by the random number of each one, largest first; any numbers for the amount of the
    i-th mask of each sequence. *)
Record rng := Rng { r_num : nat -> nat; r_order : nat -> list nat; r_amount : nat -> nat -> nat }.

(** [random_uniform] of ints in [lo <= x < hi], torch/frontend/_backend.py 1664-1674 *)
Definition uniform_int (lo hi r : nat) : nat := lo + r mod (hi - lo).

(** [rf.top_k] of the random numbers, torch/frontend/_backend.py 1526-1590: the padded positions come last, as they
    are masked; [k] above the size is an error. *)
Definition top_k (n k : nat) (lens : nat -> nat) (order : nat -> list nat) : res (nat -> list nat) :=
  if k <=? n then Ok (fun b => firstn k (filter (fun i => i <? lens b) (order b) ++ filter (fun i => negb (i <? lens b)) (order b))) else Err OtherException.

(** [mask], specaugment.py 144-168: whether a position is masked *)
Definition masked (len pos amount i : nat) : bool := (pos <=? i) && (i <? Nat.min (pos + amount) len).

(** The same mask on the time axis (for all features), or on the feature axis (for all frames) *)
Definition mask_time (len pos amount : nat) (x : list (list Z)) : list (list Z) :=
  mapi (fun t frame => if masked len pos amount t then map (fun _ => 0%Z) frame else frame) x.
Definition mask_feature (len pos amount : nat) (x : list (list Z)) : list (list Z) :=
  map (mapi (fun f v => if masked len pos amount f then 0%Z else v)) x.

(** [random_mask], 75-141, given [mask] as [set] and the size [n] of the axis and its lengths; [ints]: the numbers are no tensors. *)
Definition random_mask {X} (set : nat -> nat -> nat -> X -> X) (n : nat) (lens : nat -> nat) (ints : bool) (min_num max_num max_dims : nat) (r : rng) (xs : list X) : res (list X) :=
  let* (num, most) :=
    if ints && (min_num =? max_num) then Ok (fun _ => min_num, min_num)
    else if min_num <? max_num + 1 then
      let num := fun b => uniform_int min_num (max_num + 1) (r_num r b) in
      match xs with [] => Err OtherException | _ => Ok (num, list_max (map num (seq 0 (length xs)))) end
    else Err OtherException in
  let* indices := top_k n most lens (r_order r) in
  if (0 <? most) && (max_dims =? 0) then Err OtherException
  else Ok (fold_left (fun xs i =>
    mapi (fun b x => if i <? num b then set (lens b) (nth i (indices b) 0) (uniform_int 1 (max_dims + 1) (r_amount r i b)) x else x) xs) (seq 0 most) xs).

(** The options of [specaugment], 14-25; [step] is the global train step if the masking depends on it *)
Record options := Options { step : option nat; steps : nat * nat * nat; only_on_train : bool; max_spatial : nat; max_feature : option nat; factor : nat }.
Definition flag (b : bool) : nat := if b then 1 else 0.
(** 33-40 *)
Definition flags (o : options) : nat * nat * nat :=
  match step o with
  | Some s => let '(a, b, c) := steps o in (flag (a <=? s), flag (b <=? s), flag (c <=? s))
  | None => (1, 1, 1)
  end.
(** 31-32; [n_feat] is the size of the feature dim *)
Definition max_consecutive_feature (o : options) (n_feat : nat) : nat :=
  match max_feature o with Some (S k) => S k | _ => n_feat / 5 end.
(** [specaugment], 14-72 *)
Definition specaugment (o : options) (train : bool) (n_time n_feat : nat) (lens : nat -> nat) (rt rf : rng) (xs : list (list (list Z))) : res (list (list (list Z))) :=
  let '(s0, s1, s2) := flags o in
  let mf := max_consecutive_feature o n_feat in
  if train || negb (only_on_train o) then
    let* xs :=
      if (0 <? max_spatial o) && (0 <? factor o) then
        random_mask mask_time n_time lens false (Nat.min (s1 + s2) n_time) (Nat.min (Nat.max (n_time / factor o) 2 * (s0 + s1 + s2 * 2)) n_time) (max_spatial o) rt xs
      else Ok xs in
    if 0 <? mf then
      random_mask mask_feature n_feat (fun _ => n_feat) (match step o with None => true | _ => false end) (s1 + s2) (s0 * 2 + s1 + s2 * 2) mf rf xs
    else Ok xs
  else Ok xs.
