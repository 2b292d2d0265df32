(** Operations on padded sequences do for each sequence what they say. *)
From Verif Require Import Base ConvModel ConvSpec PadOpsModel PadOpsSpec PadOpsProofs.
Local Open Scope nat_scope.

(** ** C76: padding and shifting *)

(** padding adds the value before and after each sequence, also when the sequence is shorter than others of the batch *)
Theorem C76_pad : forall {A} (zero v : A) handle left right xs lens rows,
  padded xs lens rows -> handle = true \/ right = 0 ->
  exists olens out, pad zero handle left right (Scalar v) lens rows = Ok (olens, out) /\
    padded (map (fun x => repeat v left ++ x ++ repeat v right) xs) olens out.
Proof. intros. apply pad_ok; auto. Qed.
Print Assumptions C76_pad.

(** a tensor with one value per sequence is appended to each sequence *)
Theorem C76_append_tensor : forall {A} (zero : A) vs xs lens rows,
  padded xs lens rows -> length vs = length xs ->
  exists olens out, pad zero true 0 1 (PerSeq vs) lens rows = Ok (olens, out) /\
    padded (map (fun vx => snd vx ++ [fst vx]) (combine vs xs)) olens out.
Proof. intros. apply pad_tensor_ok; auto. Qed.
Print Assumptions C76_append_tensor.

Theorem C76_shift_right : forall {A} (zero v : A) handle amount xs lens rows,
  padded xs lens rows ->
  exists ys out, shift_right zero handle amount (Scalar v) lens rows = Ok (lens, out) /\ padded ys lens out /\
    Forall2 (moved v (Z.of_nat amount)) xs ys.
Proof. intros. apply shift_right_ok; auto. Qed.
Print Assumptions C76_shift_right.

Theorem C76_shift_left : forall {A} (zero v : A) amount xs lens rows,
  padded xs lens rows ->
  exists ys out, shift_left zero amount (Scalar v) lens rows = Ok (lens, out) /\ padded ys lens out /\
    Forall2 (moved v (- Z.of_nat amount)) xs ys.
Proof. intros. apply shift_left_ok; auto. Qed.
Print Assumptions C76_shift_left.

(** a tensor with one value per sequence can only be added once, at the end *)
Theorem C76_append_once : forall {A} (zero : A) left right vs xs lens rows,
  padded xs lens rows -> xs <> [] -> length vs = length xs -> 0 < right -> left + right <> 1 ->
  is_ok (pad zero true left right (PerSeq vs) lens rows) = false.
Proof. intros. eapply pad_tensor_once; eauto. Qed.
Print Assumptions C76_append_once.

(** shifting to the right with a tensor with one value per sequence gives the tensor back unshifted *)
Theorem C76_shift_tensor_refuted : forall {A} (zero : A) handle amount vs xs lens rows,
  padded xs lens rows -> length vs = length xs -> shift_right zero handle amount (PerSeq vs) lens rows = Ok (lens, rows).
Proof. intros. eapply shift_right_tensor; eauto. Qed.
Print Assumptions C76_shift_tensor_refuted.

(** padding after a sequence fails without a value, although None is the default *)
Theorem C76_default_value_refuted : forall {A} (zero : A) left right lens rows,
  0 < right -> is_ok (pad zero true left right NoValue lens rows) = false.
Proof. intros. apply pad_no_value; auto. Qed.
Print Assumptions C76_default_value_refuted.

Definition ex_xs : list (list Z) := [[1; 2; 3]; [4]; [5; 6]]%Z.
Definition ex_lens : list nat := [3; 1; 2].
Definition ex_rows : list (list Z) := [[1; 2; 3]; [4; 70; 71]; [5; 6; 72]]%Z.
Lemma ex_padded : padded ex_xs ex_lens ex_rows.
Proof.
  split; [reflexivity|]. repeat constructor.
  - exists []. reflexivity.
  - exists [70; 71]%Z. reflexivity.
  - exists [72]%Z. reflexivity.
Qed.
Example C76_ex : pad 0%Z true 1 2 (Scalar 9%Z) ex_lens ex_rows
  = Ok ([6; 4; 5], [[9; 1; 2; 3; 9; 9]; [9; 4; 9; 9; 9; 9]; [9; 5; 6; 9; 9; 9]]%Z).
Proof. reflexivity. Qed.
Example C76_ex_unhandled : pad 0%Z false 0 1 (Scalar 9%Z) ex_lens ex_rows
  = Ok ([4; 2; 3], [[1; 2; 3; 9]; [4; 70; 71; 9]; [5; 6; 72; 9]]%Z).
Proof. reflexivity. Qed.
Example C76_ex_tensor : pad 0%Z true 0 1 (PerSeq [7; 8; 9]%Z) ex_lens ex_rows
  = Ok ([4; 2; 3], [[1; 2; 3; 7]; [4; 8; 8; 8]; [5; 6; 9; 9]]%Z).
Proof. reflexivity. Qed.
Example C76_ex_shift : shift_right 0%Z true 1 (Scalar 9%Z) ex_lens ex_rows = Ok (ex_lens, [[9; 1; 2]; [9; 4; 70]; [9; 5; 6]]%Z)
  /\ shift_left 0%Z 2 (Scalar 9%Z) ex_lens ex_rows = Ok (ex_lens, [[3; 9; 9]; [9; 9; 9]; [9; 9; 9]]%Z).
Proof. split; reflexivity. Qed.

(** ** C77: reversing and slicing *)

Theorem C77_reverse : forall {A} (xs : list (list A)) lens rows,
  padded xs lens rows -> Forall (fun x => x <> []) xs ->
  exists out, reverse_sequence true lens rows = Ok (lens, out) /\ padded (map (@rev A) xs) lens out.
Proof. intros. apply reverse_ok; auto. Qed.
Print Assumptions C77_reverse.

(** reversing twice gives the sequences back *)
Theorem C77_reverse_twice : forall {A} (xs : list (list A)) lens rows,
  padded xs lens rows -> Forall (fun x => x <> []) xs ->
  exists out out', reverse_sequence true lens rows = Ok (lens, out) /\ reverse_sequence true lens out = Ok (lens, out') /\ padded xs lens out'.
Proof.
  intros A xs lens rows Hp Hne. destruct (reverse_ok xs lens rows Hp Hne) as (out & E & Ho).
  destruct (reverse_ok _ lens out Ho) as (out' & E' & Ho').
  - apply Forall_forall. intros y Hy. apply in_map_iff in Hy as (x & <- & Hx). rewrite Forall_forall in Hne. specialize (Hne x Hx).
    intros E0. apply Hne. rewrite <- (rev_involutive x), E0. reflexivity.
  - exists out, out'. rewrite map_map, (map_ext _ (fun x => x)), map_id in Ho' by (intros; apply rev_involutive). auto.
Qed.
Print Assumptions C77_reverse_twice.

(** a batch with an empty sequence cannot be reversed *)
Theorem C77_reverse_empty_refuted : exists (xs : list (list Z)) lens rows,
  padded xs lens rows /\ is_ok (reverse_sequence true lens rows) = false.
Proof.
  exists [[]; [1]]%Z, [0; 1], [[7]; [1]]%Z. split; [|reflexivity]. split; [reflexivity|]. repeat constructor.
  - exists [7]%Z. reflexivity.
  - exists []. reflexivity.
Qed.
Print Assumptions C77_reverse_empty_refuted.

(** without [handle_dynamic_dims], what is after the end of a sequence comes first *)
Theorem C77_reverse_unhandled_refuted : exists (xs : list (list Z)) lens rows out,
  padded xs lens rows /\ reverse_sequence false lens rows = Ok (lens, out) /\ nth_error xs 1 = Some [4]%Z /\ nth_error out 1 = Some [71; 70; 4]%Z.
Proof.
  exists ex_xs, ex_lens, ex_rows, [[3; 2; 1]; [71; 70; 4]; [72; 6; 5]]%Z. split; [apply ex_padded|]. repeat split; reflexivity.
Qed.
Print Assumptions C77_reverse_unhandled_refuted.

(** a slice with a start and a size per sequence *)
Theorem C77_slice_size : forall {A} s st ks (xs : list (list A)) lens rows,
  padded xs lens rows -> start_of s st -> Forall2 (fun k x => s + k <= length x) ks xs ->
  exists out, slice lens rows st None 1 (SizeDim ks) = Ok (ks, out) /\
    padded (map (fun kx => firstn (fst kx) (skipn s (snd kx))) (combine ks xs)) ks out.
Proof. intros. apply slice_size_ok; auto. Qed.
Print Assumptions C77_slice_size.

(** a slice from a start to the end *)
Theorem C77_slice_from : forall {A} s st (xs : list (list A)) lens rows,
  padded xs lens rows -> start_of s st -> s <= list_max lens ->
  exists olens out, slice lens rows st None 1 NoSize = Ok (olens, out) /\ padded (map (skipn s) xs) olens out.
Proof. intros. apply slice_from_ok; auto. Qed.
Print Assumptions C77_slice_from.

(** a slice from a start to an end inside of all sequences *)
Theorem C77_slice_range : forall {A} s st e (xs : list (list A)) lens rows,
  padded xs lens rows -> xs <> [] -> start_of s st -> s <= e -> Forall (fun x => e <= length x) xs ->
  exists olens out, slice lens rows st (Some (Z.of_nat e)) 1 NoSize = Ok (olens, out) /\
    padded (map (fun x => firstn (e - s) (skipn s x)) xs) olens out.
Proof. intros. apply slice_range_ok; auto. Qed.
Print Assumptions C77_slice_range.

(** a slice with a start and a size for all sequences *)
Theorem C77_slice_int : forall {A} s st k (xs : list (list A)) lens rows,
  padded xs lens rows -> start_of s st -> Forall (fun x => s + k <= length x) xs ->
  exists olens out, slice lens rows st None 1 (SizeInt k) = Ok (olens, out) /\
    padded (map (fun x => firstn k (skipn s x)) xs) olens out.
Proof. intros. apply slice_int_ok; auto. Qed.
Print Assumptions C77_slice_int.

(** a slice from and to a position counted from the end, if all sequences are of the same length *)
Theorem C77_slice_end : forall {A} n a b (xs : list (list A)) lens rows,
  padded xs lens rows -> Forall (fun x => length x = n) xs -> 0 < b -> b <= a -> a <= n ->
  exists olens out, slice lens rows (StartInt (- Z.of_nat a)) (Some (- Z.of_nat b)%Z) 1 NoSize = Ok (olens, out) /\
    padded (map (fun x => firstn (a - b) (skipn (n - a) x)) xs) olens out.
Proof. intros. apply slice_end_ok; auto. Qed.
Print Assumptions C77_slice_end.

(** what is refused: a step of zero, a size and a step, a size and an end, a start from the end without an end from the end,
    a start before the beginning *)
Theorem C77_slice_refused : forall {A} (rows : list (list A)) lens st stop step size,
  step = 0 \/ (size <> NoSize /\ step <> 1) \/ (size <> NoSize /\ stop <> None) \/
  (size = NoSize /\ exists a e, st = StartInt (Z.neg a) /\ stop = Some (Z.of_nat e)) \/
  (exists z, st = StartInt z /\ rows <> [] /\ Forall (fun r => (z < - Z.of_nat (length r))%Z) rows) ->
  is_ok (slice lens rows st stop step size) = false.
Proof. intros. apply slice_refused; auto. Qed.
Print Assumptions C77_slice_refused.

(** a step only changes the sizes: the second frame of [x[::2]] is the second frame of [x] *)
Theorem C77_step_refuted : exists (xs : list (list Z)) lens rows olens out,
  padded xs lens rows /\ slice lens rows NoStart None 2 NoSize = Ok (olens, out) /\
  xs = [[1; 2; 3; 4]]%Z /\ padded [[1; 2]]%Z olens (map (firstn 2) out).
Proof.
  exists [[1; 2; 3; 4]]%Z, [4], [[1; 2; 3; 4]]%Z, [2], [[1; 2; 3; 4]]%Z. split; [|split; [reflexivity|split; [reflexivity|]]].
  - split; [reflexivity|]. repeat constructor. exists []. reflexivity.
  - split; [reflexivity|]. repeat constructor. exists []. reflexivity.
Qed.
Print Assumptions C77_step_refuted.

(** a slice from a start of zero, as a scalar tensor, has size zero *)
Theorem C77_tensor_start_refuted : forall n (x : list Z), length x = S n ->
  slice [S n] [x] (StartTensor 0) None 1 NoSize = Ok ([0], [x]).
Proof.
  intros n x Hl. unfold slice, slice_out. cbn [Nat.eqb]. unfold slice_dim. cbn [mapM bind].
  rewrite (proj2 (Z.eqb_neq _ _)) by lia. rewrite Z.sub_0_r, Z_mod_same_full. cbn [bind Z.to_nat].
  change (dim_value [S n]) with (Nat.max (S n) 0). rewrite Nat.max_0_r. replace (Z.of_nat (S n) - 0)%Z with (Z.of_nat (length x)) by lia.
  change 0%Z with (Z.of_nat 0) at 1. rewrite narrow_ok by lia. cbn [bind skipn]. rewrite firstn_all. reflexivity.
Qed.
Print Assumptions C77_tensor_start_refuted.

(** and it is an error if there is an empty sequence *)
Theorem C77_tensor_start_empty : forall {A} lens (rows : list (list A)) z stop step, In 0 lens ->
  is_ok (slice lens rows (StartTensor z) stop step NoSize) = false.
Proof.
  intros A lens rows z stop step H. unfold slice, slice_out. destruct (step =? 0); [reflexivity|]. unfold slice_dim.
  match goal with |- context [mapM ?f lens] => assert (E : is_ok (mapM f lens) = false) end.
  { induction lens as [|n lens IH]; [easy|]. cbn [mapM]. destruct n as [|n]; [reflexivity|]. destruct H as [H|H]; [discriminate|].
    rewrite (proj2 (Z.eqb_neq _ _)) by lia. cbn [bind]. specialize (IH H). now destruct (mapM _ lens). }
  now destruct (mapM _ lens).
Qed.
Print Assumptions C77_tensor_start_empty.

(** a negative end or a negative start, as for a list, is an error *)
Theorem C77_negative_refuted : exists (xs : list (list Z)) lens rows,
  padded xs lens rows /\ is_ok (slice lens rows NoStart (Some (-1)%Z) 1 NoSize) = false /\
  is_ok (slice lens rows (StartInt (-1)%Z) None 1 NoSize) = false.
Proof.
  exists [[1; 2]]%Z, [2], [[1; 2]]%Z. split; [|split; reflexivity]. split; [reflexivity|]. repeat constructor. exists []. reflexivity.
Qed.
Print Assumptions C77_negative_refuted.

(** a slice to an end after the end of a sequence contains what is after the sequence *)
Theorem C77_short_refuted : exists (xs : list (list Z)) lens rows out,
  padded xs lens rows /\ slice lens rows NoStart (Some 2%Z) 1 NoSize = Ok ([2; 2], out) /\
  nth_error xs 1 = Some [4]%Z /\ nth_error out 1 = Some [4; 7]%Z.
Proof.
  exists [[1; 2; 3]; [4]]%Z, [3; 1], [[1; 2; 3]; [4; 7; 7]]%Z, [[1; 2]; [4; 7]]%Z. split; [|repeat split; reflexivity].
  split; [reflexivity|]. repeat constructor.
  - exists []. reflexivity.
  - exists [7; 7]%Z. reflexivity.
Qed.
Print Assumptions C77_short_refuted.

Example C77_ex : reverse_sequence true ex_lens ex_rows = Ok (ex_lens, [[3; 2; 1]; [4; 4; 4]; [6; 5; 5]]%Z)
  /\ slice ex_lens ex_rows (StartInt 1) None 1 NoSize = Ok ([2; 0; 1], [[2; 3]; [70; 71]; [6; 72]]%Z)
  /\ slice ex_lens ex_rows (StartInt 1) None 1 (SizeDim [2; 0; 1]) = Ok ([2; 0; 1], [[2; 3]; [70; 71]; [6; 72]]%Z)
  /\ slice ex_lens ex_rows NoStart (Some 1%Z) 1 NoSize = Ok ([1; 1; 1], [[1]; [4]; [5]]%Z).
Proof. repeat split; reflexivity. Qed.

(** ** C78: windows *)

(** one window around each (or each [s]-th) frame of each sequence, with the padding value outside of the sequence *)
Theorem C78_same : forall {A} (zero v : A) handle use_mask W s wl wr left right xs lens rows,
  padded xs lens rows -> 0 < W -> 0 < s -> handle = true \/ right = 0 -> window_sides W wl wr = (left, right) -> left + right + 1 = W ->
  exists ys olens out, window zero handle use_mask true W s wl wr (Scalar v) lens rows = Ok (olens, out) /\ padded ys olens out /\
    Forall2 (fun x y => windows_of v W s left x y /\ same_count s x y) xs ys.
Proof. intros. eapply window_same_ok; eauto. Qed.
Print Assumptions C78_same.

(** by default the window has the same number of frames left and right, or one more on the right *)
Theorem C78_default_sides : forall W left right, 0 < W -> window_sides W None None = (left, right) ->
  left + right + 1 = W /\ (right = left \/ right = left + 1).
Proof.
  intros W left right HW E. apply pair_equal_spec in E as [<- <-]. unfold ceildiv.
  replace (W + 2 - 1) with (W + 1) by lia.
  pose proof (Nat.div_mod W 2 ltac:(lia)) as E1. pose proof (Nat.mod_upper_bound W 2 ltac:(lia)) as U1.
  pose proof (Nat.div_mod (W + 1) 2 ltac:(lia)) as E2. pose proof (Nat.mod_upper_bound (W + 1) 2 ltac:(lia)) as U2.
  set (a := W / 2) in *. set (b := (W + 1) / 2) in *. set (c := W mod 2) in *. set (d := (W + 1) mod 2) in *. clearbody a b c d. lia.
Qed.
Print Assumptions C78_default_sides.

(** if one side is given, the rest of the window is on the other side *)
Theorem C78_sides : forall W n, n < W ->
  window_sides W (Some n) None = (n, W - 1 - n) /\ window_sides W None (Some n) = (W - 1 - n, n).
Proof. intros W n H. split; cbn; f_equal; lia. Qed.
Print Assumptions C78_sides.

(** without padding, one window per position where the window is inside of the sequence, if no sequence is shorter *)
Theorem C78_valid : forall {A} (zero v : A) handle use_mask W s wl wr value xs lens rows,
  padded xs lens rows -> 0 < W -> 0 < s -> Forall (fun x => W <= length x) xs ->
  exists ys olens out, window zero handle use_mask false W s wl wr value lens rows = Ok (olens, out) /\ padded ys olens out /\
    Forall2 (fun x y => windows_of v W s 0 x y /\ valid_count W s x y) xs ys.
Proof. intros. apply window_valid_ok; auto. Qed.
Print Assumptions C78_valid.

(** without a padding value, which is the default, there is an error *)
Theorem C78_default_value_refuted : forall {A} (zero : A) use_mask W s lens rows,
  1 < W -> is_ok (window zero true use_mask true W s None None NoValue lens rows) = false.
Proof. intros. apply window_no_value; auto. Qed.
Print Assumptions C78_default_value_refuted.

(** a sequence which is shorter than the window has one window although no window fits *)
Theorem C78_short_refuted : exists (xs : list (list Z)) lens rows olens out,
  padded xs lens rows /\ window 0%Z true true false 3 1 None None NoValue lens rows = Ok (olens, out) /\
  nth_error xs 1 = Some [5]%Z /\ nth_error olens 1 = Some 1.
Proof.
  exists [[1; 2; 3; 4]; [5]]%Z, [4; 1], [[1; 2; 3; 4]; [5; 6; 6; 6]]%Z, [2; 1], [[[1; 2; 3]; [2; 3; 4]]; [[5; 0; 0]; [0; 0; 0]]]%Z.
  split; [|repeat split; reflexivity]. split; [reflexivity|]. repeat constructor.
  - exists []. reflexivity.
  - exists [6; 6; 6]%Z. reflexivity.
Qed.
Print Assumptions C78_short_refuted.

Example C78_ex : window 0%Z true true true 3 1 None None (Scalar 9%Z) ex_lens ex_rows
  = Ok (ex_lens, [[[9; 1; 2]; [1; 2; 3]; [2; 3; 9]]; [[9; 4; 9]; [4; 9; 9]; [9; 9; 9]]; [[9; 5; 6]; [5; 6; 9]; [6; 9; 9]]]%Z)
  /\ window 0%Z true true true 2 2 None None (Scalar 9%Z) ex_lens ex_rows
  = Ok ([2; 1; 1], [[[1; 2]; [3; 9]]; [[4; 9]; [9; 9]]; [[5; 6]; [9; 9]]]%Z)
  /\ window 0%Z true true true 3 1 (Some 2) None (Scalar 9%Z) [3] [[1; 2; 3]]%Z
  = Ok ([3], [[[9; 9; 1]; [9; 1; 2]; [1; 2; 3]]]%Z).
Proof. repeat split; reflexivity. Qed.

(** ** C79: packing *)

(** the elements where the mask is set, in the order of the dims *)
Theorem C79_select : forall {A} batch_major lens (rows : list (list A)) mask,
  shape (length lens) (list_max lens) rows -> shape (length lens) (list_max lens) mask ->
  selection batch_major (length lens) (list_max lens) rows mask (masked_select batch_major lens rows mask).
Proof. intros. apply masked_select_ok; auto. Qed.
Print Assumptions C79_select.

(** what is selected, processed and scattered back is at its place, and the backup elsewhere *)
Theorem C79_scatter : forall {A} batch_major lens (f : A -> A) (rows backup : list (list A)) mask,
  shape (length lens) (list_max lens) rows -> shape (length lens) (list_max lens) backup ->
  shape (length lens) (list_max lens) mask -> inside lens mask ->
  exists out, masked_scatter batch_major lens backup mask (map f (masked_select batch_major lens rows mask)) = Ok out /\
    shape (length lens) (list_max lens) out /\
    forall b t x y s, cell rows b t = Some x -> cell backup b t = Some y -> cell mask b t = Some s ->
      cell out b t = Some (if s then f x else y).
Proof. intros. apply masked_scatter_ok; auto. Qed.
Print Assumptions C79_scatter.

(** packing gives all frames of the sequences in the order of the dims *)
Theorem C79_pack : forall {A} batch_major (xs : list (list A)) lens rows,
  padded xs lens rows -> packed batch_major xs (pack_padded batch_major lens rows).
Proof. intros. apply pack_ok; auto. Qed.
Print Assumptions C79_pack.

Theorem C79_pack_concat : forall {A} (xs : list (list A)) lens rows,
  padded xs lens rows -> pack_padded true lens rows = concat xs.
Proof. intros. eapply pack_concat; eauto. Qed.
Print Assumptions C79_pack_concat.

(** packing, processing all frames, and unpacking is the same as processing the frames of each sequence *)
Theorem C79_unpack : forall {A} (zero : A) batch_major (f : A -> A) xs lens rows,
  padded xs lens rows ->
  exists out, pad_packed zero batch_major lens (map f (pack_padded batch_major lens rows)) = Ok out /\
    padded_with zero (map (map f) xs) lens out.
Proof. intros. apply pad_packed_ok; auto. Qed.
Print Assumptions C79_unpack.

(** selecting in the time dim packs each sequence separately *)
Theorem C79_select_time : forall {A} (zero : A) add use_mask xs lens rows mask,
  (forall a, add zero a = a) -> padded xs lens rows -> shape (length lens) (list_max lens) mask -> 0 < list_max lens ->
  exists olens out, masked_select_time zero add use_mask lens rows mask = Ok (olens, out) /\
    padded_with zero (map (fun xm => kept (fst xm) (snd xm)) (combine xs mask)) olens out.
Proof. intros. apply masked_select_time_ok; auto. Qed.
Print Assumptions C79_select_time.

(** what is selected in the time dim, processed and scattered back is at its place, and the backup elsewhere *)
Theorem C79_scatter_time : forall {A} (f : A -> A) (xs : list (list A)) lens rows mask backup slens src,
  padded xs lens rows -> shape (length lens) (list_max lens) mask -> shape (length lens) (list_max lens) backup ->
  padded (map (fun xm => map f (kept (fst xm) (snd xm))) (combine xs mask)) slens src -> 0 < list_max slens ->
  exists out, masked_scatter_time lens backup mask src = Ok out /\ shape (length lens) (list_max lens) out /\
    forall b t n x y s, nth_error lens b = Some n -> cell rows b t = Some x -> cell backup b t = Some y -> cell mask b t = Some s ->
      cell out b t = Some (if s && (t <? n) then f x else y).
Proof. intros. eapply masked_scatter_time_ok; eauto. Qed.
Print Assumptions C79_scatter_time.

(** if the mask is also set after the end of a sequence, what is selected over all dims has these elements as well, and scattering it
    back puts the elements at wrong places *)
Theorem C79_outside_refuted : exists (xs : list (list Z)) lens rows backup mask out,
  padded xs lens rows /\ shape (length lens) (list_max lens) mask /\ shape (length lens) (list_max lens) backup /\
  masked_scatter true lens backup mask (masked_select true lens rows mask) = Ok out /\
  cell mask 1 0 = Some true /\ cell xs 1 0 = Some 2%Z /\ cell out 1 0 = Some 9%Z.
Proof.
  exists [[1]; [2; 3]]%Z, [1; 2], [[1; 9]; [2; 3]]%Z, [[0; 0]; [0; 0]]%Z, [[true; true]; [true; true]], [[1; 0]; [9; 2]]%Z.
  split; [|repeat split; repeat constructor]. split; [reflexivity|]. repeat constructor.
  - exists [9]%Z. reflexivity.
  - exists []. reflexivity.
Qed.
Print Assumptions C79_outside_refuted.

(** if nothing is selected in the time dim, scattering back is an error *)
Theorem C79_nothing_refuted : exists (xs : list (list Z)) lens rows backup mask slens src,
  padded xs lens rows /\ shape (length lens) (list_max lens) mask /\ shape (length lens) (list_max lens) backup /\
  masked_select_time 0%Z Z.add true lens rows mask = Ok (slens, src) /\
  is_ok (masked_scatter_time lens backup mask src) = false.
Proof.
  exists [[1; 2]]%Z, [2], [[1; 2]]%Z, [[0; 0]]%Z, [[false; false]], [0], [[]].
  split; [|repeat split; repeat constructor]. split; [reflexivity|]. repeat constructor. exists []. reflexivity.
Qed.
Print Assumptions C79_nothing_refuted.

Definition ex_mask : list (list bool) := [[true; false; true]; [true; true; true]; [false; true; true]].
Example C79_ex : pack_padded true ex_lens ex_rows = [1; 2; 3; 4; 5; 6]%Z
  /\ pack_padded false ex_lens ex_rows = [1; 4; 5; 2; 6; 3]%Z
  /\ pad_packed 0%Z true ex_lens [1; 2; 3; 4; 5; 6]%Z = Ok [[1; 2; 3]; [4; 0; 0]; [5; 6; 0]]%Z
  /\ pad_packed 0%Z false ex_lens [1; 4; 5; 2; 6; 3]%Z = Ok [[1; 2; 3]; [4; 0; 0]; [5; 6; 0]]%Z
  /\ masked_select_time 0%Z Z.add true ex_lens ex_rows ex_mask = Ok ([2; 1; 1], [[1; 3]; [4; 0]; [6; 0]]%Z)
  /\ masked_scatter_time ex_lens [[0; 0; 0]; [0; 0; 0]; [0; 0; 0]]%Z ex_mask [[1; 3]; [4; 0]; [6; 0]]%Z
     = Ok [[1; 0; 3]; [4; 0; 0]; [0; 6; 0]]%Z.
Proof. repeat split; reflexivity. Qed.
