(** C73: sizes of convolutions. C74: convolutions of a padded batch. C75: pooling of a padded batch. *)
From Verif Require Import Base ListLemmas ConvModel ConvSpec ConvProofs.
Local Open Scope nat_scope.

(** ** C73 *)
(** The size of the output of each sequence is the number of windows that fit, which depends on its own length only; the raw
    tensor is as long as the longest output. *)
Theorem C73_sizes {A B} (W : list A -> B) zero c xs lens rows olens out :
  positive c -> consistent_same c -> undilated_same c -> padded xs lens rows ->
  conv zero W c lens rows = Ok (olens, out) ->
  Forall2 (windows c) lens olens /\ length out = length lens /\ Forall (fun o => length o = list_max olens) out.
Proof. apply conv_sizes. Qed.
Print Assumptions C73_sizes.

(** It raises an error exactly if there is no window in the longest sequence. *)
Theorem C73_no_error {A B} (W : list A -> B) zero c xs lens rows m :
  positive c -> consistent_same c -> undilated_same c -> padded xs lens rows -> xs <> [] ->
  windows c (list_max lens) m -> (is_ok (conv zero W c lens rows) = true <-> 0 < m).
Proof. apply conv_no_error. Qed.
Print Assumptions C73_no_error.

Definition cf k s d p m n := {| size := k; stride := s; dilation := d; pad := p; use_mask := m; consistent := n |}.
Ltac facts := unfold positive, consistent_same, undilated_same, masks; repeat match goal with |- _ /\ _ => split end; try (cbn; lia); try reflexivity;
  try (intros; cbn in *; congruence); try (cbn; auto; fail).
Ltac solve_padded := split; [reflexivity|repeat (apply Forall2_cons; [split; [eexists; reflexivity|reflexivity]|]); apply Forall2_nil].
Definition sumW (l : list Z) : Z := fold_right Z.add 0%Z l.

(** "same" with a dilation and an odd filter: the output is shorter than its dim. *)
Theorem C73_dilated_same_refuted :
  exists c xs lens rows olens out, positive c /\ pad c = Same /\ stride c = 1 /\ use_mask c = true /\ consistent c = true /\
    padded xs lens rows /\ conv 0%Z sumW c lens rows = Ok (olens, out) /\
    olens = [6] /\ out = [[4; 6; 9; 6]%Z] /\ windows c 6 6.
Proof.
  exists (cf 3 1 2 Same true true), [[0; 1; 2; 3; 4; 5]%Z], [6], [[0; 1; 2; 3; 4; 5]%Z], [6], [[4; 6; 9; 6]%Z].
  facts; [solve_padded|intros i; cbn; lia].
Qed.
Print Assumptions C73_dilated_same_refuted.

(** A sequence which is too short gives an empty output in a batch, but an error alone. *)
Theorem C73_short_refuted :
  exists c xs lens rows olens out, positive c /\ pad c = Valid /\ use_mask c = true /\
    padded xs lens rows /\ conv 0%Z sumW c lens rows = Ok (olens, out) /\
    In [7%Z] xs /\ is_ok (conv 0%Z sumW c [1] [[7%Z]]) = false.
Proof.
  exists (cf 2 1 1 Valid true true), [[1; 2]%Z; [7]%Z], [2; 1], [[1; 2]%Z; [7; 99]%Z], [1; 0], [[3]%Z; [7]%Z].
  facts. solve_padded.
Qed.
Print Assumptions C73_short_refuted.


Example C73_ex : padded [[1; 2; 3; 4; 5]%Z; [6; 7]%Z] [5; 2] [[1; 2; 3; 4; 5]%Z; [6; 7; -1; -2; -3]%Z]
  /\ positive (cf 3 2 1 Same true true) /\ consistent_same (cf 3 2 1 Same true true) /\ undilated_same (cf 3 2 1 Same true true)
  /\ conv 0%Z sumW (cf 3 2 1 Same true true) [5; 2] [[1; 2; 3; 4; 5]%Z; [6; 7; -1; -2; -3]%Z]
     = Ok ([3; 1], [[3; 9; 9]%Z; [13; 7; 0]%Z])
  /\ windows (cf 3 2 1 Same true true) 5 3.
Proof.
  facts; [solve_padded|intros i; unfold window_fits; cbn; lia].
Qed.
Example C73_ex_even : conv 0%Z sumW (cf 4 3 2 Same true true) [5; 2] [[1; 2; 3; 4; 5]%Z; [6; 7; -1; -2; -3]%Z]
     = Ok ([2; 1], [[6; 9]%Z; [7; 6]%Z]).
Proof. vm_compute. reflexivity. Qed.
Example C73_ex_valid : conv 0%Z sumW (cf 2 2 2 Valid false false) [5; 2] [[1; 2; 3; 4; 5]%Z; [6; 7; -1; -2; -3]%Z]
     = Ok ([2; 0], [[4; 8]%Z; [5; -4]%Z]).
Proof. vm_compute. reflexivity. Qed.

(** ** C74 *)
(** The result of a padded batch is the padded batch of the results of the single sequences. *)
Theorem C74_batch {A B} (W : list A -> B) zero c xs lens rows olens out :
  positive c -> consistent_same c -> undilated_same c -> masks c -> padded xs lens rows ->
  conv zero W c lens rows = Ok (olens, out) ->
  exists ys, padded ys olens out /\ Forall2 (result_of W zero c) xs ys.
Proof. apply conv_batch. Qed.
Print Assumptions C74_batch.

(** So a sequence has the same result alone, or in another batch. *)
Theorem C74_other_batch {A B} (W : list A -> B) zero c x xs lens rows olens out i xs' lens' rows' olens' out' i' :
  positive c -> consistent_same c -> undilated_same c -> masks c ->
  padded xs lens rows -> conv zero W c lens rows = Ok (olens, out) -> nth_error xs i = Some x ->
  padded xs' lens' rows' -> conv zero W c lens' rows' = Ok (olens', out') -> nth_error xs' i' = Some x ->
  exists n row row', nth_error olens i = Some n /\ nth_error olens' i' = Some n /\
    nth_error out i = Some row /\ nth_error out' i' = Some row' /\ n <= length row /\ n <= length row' /\ firstn n row = firstn n row'.
Proof.
  intros Hp Hc Hu Hm Hpad E Hx Hpad' E' Hx'.
  destruct (conv_batch W zero c xs lens rows olens out Hp Hc Hu Hm Hpad E) as (ys & [-> Hy] & HR).
  destruct (conv_batch W zero c xs' lens' rows' olens' out' Hp Hc Hu Hm Hpad' E') as (ys' & [-> Hy'] & HR').
  destruct (Forall2_nth_l _ _ _ _ _ HR Hx) as (y & Hyi & Ry). destruct (Forall2_nth_l _ _ _ _ _ HR' Hx') as (y' & Hyi' & Ry').
  assert (y' = y) as -> by (rewrite (result_of_frames _ _ _ _ _ Hp Ry), (result_of_frames _ _ _ _ _ Hp Ry'); reflexivity).
  destruct (Forall2_nth_l _ _ _ _ _ Hy Hyi) as (row & Hr & [junk ->] & _).
  destruct (Forall2_nth_l _ _ _ _ _ Hy' Hyi') as (row' & Hr' & [junk' ->] & _).
  exists (length y), (y ++ junk), (y ++ junk'). rewrite !nth_error_map, Hyi, Hyi'. rewrite !app_length.
  repeat split; auto; try lia. rewrite !firstn_app, !Nat.sub_diag, !firstn_all, !firstn_O. reflexivity.
Qed.
Print Assumptions C74_other_batch.

(** Before behavior version 24, "same" with a stride: for a single sequence, the first and the last window have the same amount of
    padding, or one more at the end. *)
Theorem C74_old_same {A B} (W : list A -> B) zero c x :
  positive c -> pad c = Same -> 1 < stride c -> stride c <= size c -> dilation c = 1 -> consistent c = false -> x <> [] ->
  exists l r y, conv zero W c [length x] [x] = Ok ([length y], [y]) /\ (r = l \/ r = l + 1) /\
    (length y - 1) * stride c + size c = l + length x + r /\ windows c (length x) (length y) /\
    (forall i, i < length y -> nth_error y i = Some (W (map (fun j => frame zero x (position c l i j)) (seq 0 (size c))))).
Proof.
  intros Hp Es Hs Hks Hd Hc Hx. pose proof Hp as (Hk & _ & _).
  set (L := length x). assert (HL : 0 < L) by (unfold L; destruct x; cbn; [easy|lia]).
  set (q := (L - 1) mod stride c). assert (Hq : q < stride c) by (apply Nat.mod_upper_bound; lia).
  set (pd := size c - 1 - q). set (l := pd / 2). set (r := pd - l).
  assert (Hlr : r = l \/ r = l + 1) by (unfold r, l; pose proof (Nat.div_mod pd 2 ltac:(lia)); pose proof (Nat.mod_upper_bound pd 2 ltac:(lia)); lia).
  assert (Er : mask_rows c zero [L] [x] = [x]).
  { unfold mask_rows. destruct (use_mask c); auto. cbn [combine map fst snd]. f_equal.
    pose proof (masked_app zero x []) as M. rewrite app_nil_r in M. unfold L. rewrite M. cbn. apply app_nil_r. }
  assert (Ecl : ceildiv L (stride c) = (L - 1) / stride c + 1) by (rewrite ceildiv_floor by lia; reflexivity).
  assert (EN : l + L + r - (size c - 1) = (L - 1) / stride c * stride c + 1).
  { pose proof (Nat.div_mod (L - 1) (stride c) ltac:(lia)) as D. fold q in D. unfold r, pd.
    assert (l <= pd) by (unfold l; apply half_le). set (w := (L - 1) / stride c) in *. rewrite (Nat.mul_comm w). unfold pd in *. clearbody w q l. lia. }
  assert (En : ceildiv (l + L + r - (size c - 1) * dilation c) (stride c) = ceildiv L (stride c)).
  { rewrite Hd, Nat.mul_1_r, EN, Ecl. set (w := (L - 1) / stride c) in *. clearbody w.
    rewrite <- ceildiv_floor by lia. rewrite Nat.add_sub.
    rewrite Nat.div_mul by lia. reflexivity. }
  exists l, r, (map (fun i => W (map (fun j => frame zero x (position c l i j)) (seq 0 (size c)))) (seq 0 (ceildiv L (stride c)))).
  rewrite map_length, seq_length. split; [|split; [exact Hlr|split; [|split]]].
  - unfold conv. rewrite Er. unfold needs_consistent. rewrite Es, Hc, andb_false_r. cbn [bind].
    rewrite (backend_pad W zero c Same l r); auto.
    + cbn [mapM map]. unfold row_result. fold L. destruct (Nat.ltb_spec (l + L + r) ((size c - 1) * dilation c + 1)).
      { exfalso. rewrite Hd, Nat.mul_1_r in H. revert EN H. generalize ((L - 1) / stride c * stride c). clear. intros. lia. }
      cbn [bind]. rewrite out_size_calc by auto. cbn [calc_out_dim]. rewrite En. reflexivity.
    + unfold conv_pads. destruct (Nat.ltb_spec 1 (stride c)); [|lia]. cbn [dim_value fold_right]. rewrite Nat.max_0_r.
      replace (Z.of_nat L - 1)%Z with (Z.of_nat (L - 1)) by lia. rewrite <- Nat2Z.inj_mod. fold q.
      replace (Z.of_nat (size c) - 1 - Z.of_nat q)%Z with (Z.of_nat pd) by (unfold pd; lia).
      change 2%Z with (Z.of_nat 2). rewrite <- Nat2Z.inj_div. fold l. f_equal. unfold r. pose proof (half_le pd). fold l in H0. lia.
  - rewrite Ecl. set (w := (L - 1) / stride c) in *. rewrite Nat.add_sub. lia.
  - intros i. unfold window_fits. rewrite Es. apply ceildiv_lt. lia.
  - intros i Hi. rewrite nth_error_map, nth_error_seq by auto. reflexivity.
Qed.
Print Assumptions C74_old_same.

Definition digits (l : list Z) : Z := fold_left (fun a x => 10 * a + x)%Z l 0%Z.
(** But in a batch, the padding is that of the longest sequence. *)
Theorem C74_old_same_refuted :
  exists c xs lens rows, positive c /\ pad c = Same /\ size c = 3 /\ stride c = 2 /\ dilation c = 1 /\ use_mask c = true /\
    padded xs lens rows /\ nth_error xs 1 = Some [6; 7]%Z /\
    conv 0%Z digits c lens rows = Ok ([2; 1], [[12; 230]; [67; 700]]%Z) /\
    conv 0%Z digits c [2] [[6; 7]%Z] = Ok ([1], [[670]]%Z).
Proof.
  exists (cf 3 2 1 Same true false), [[1; 2; 3]%Z; [6; 7]%Z], [3; 2], [[1; 2; 3]%Z; [6; 7; -1]%Z].
  facts. solve_padded.
Qed.
Print Assumptions C74_old_same_refuted.

(** Without the mask, what is after the end of a sequence gets into its result. *)
Theorem C74_no_mask_refuted :
  exists c xs lens rows rows', positive c /\ pad c = Same /\ stride c = 1 /\ padded xs lens rows /\ padded xs lens rows' /\
    conv 0%Z digits c lens rows = Ok ([3; 1], [[12; 123; 230]; [67; 670; 700]]%Z) /\
    conv 0%Z digits c lens rows' = Ok ([3; 1], [[12; 123; 230]; [60; 600; 0]]%Z).
Proof.
  exists (cf 3 1 1 Same false true), [[1; 2; 3]%Z; [6]%Z], [3; 1], [[1; 2; 3]%Z; [6; 7; 0]%Z], [[1; 2; 3]%Z; [6; 0; 0]%Z].
  facts; solve_padded.
Qed.
Print Assumptions C74_no_mask_refuted.

(** A filter smaller than the stride: frames are cut off at the start, here the only frame that the window should be around. *)
Theorem C74_old_same_crops_refuted :
  exists c, positive c /\ pad c = Same /\ consistent c = false /\
    conv 0%Z sumW c [3] [[5; 6; 7]%Z] = Ok ([2], [[5; 7]%Z]) /\ conv 0%Z sumW c [2] [[5; 6]%Z] = Ok ([1], [[6]%Z]).
Proof. exists (cf 1 2 1 Same true false). facts. Qed.
Print Assumptions C74_old_same_crops_refuted.

Example C74_ex :
  let c := cf 3 1 1 Same true false in
  positive c /\ consistent_same c /\ undilated_same c /\ masks c /\ padded [[1; 2; 3]%Z; [6]%Z] [3; 1] [[1; 2; 3]%Z; [6; 7; 0]%Z] /\
  conv 0%Z digits c [3; 1] [[1; 2; 3]%Z; [6; 7; 0]%Z] = Ok ([3; 1], [[12; 123; 230]; [60; 600; 0]]%Z) /\
  conv 0%Z digits c [1] [[6]%Z] = Ok ([1], [[60]%Z]).
Proof. cbv zeta. facts. solve_padded. Qed.
Example C74_ex_old : let c := cf 4 3 1 Same true false in
  positive c /\ pad c = Same /\ 1 < stride c /\ stride c <= size c /\ dilation c = 1 /\ consistent c = false /\
  conv 0%Z digits c [5] [[1; 2; 3; 4; 5]%Z] = Ok ([2], [[123; 3450]]%Z).
Proof. cbv zeta. facts. Qed.

(** ** C75 *)
(** Max-pooling: the result of a padded batch is the padded batch of the results of the single sequences, with zeros after their
    ends. *)
Theorem C75_max {A B} (W : list (option A) -> B) minus_inf zero c xs lens rows olens out :
  positive c -> consistent_same c -> masks c -> ignores minus_inf W -> padded xs lens rows ->
  pool minus_inf zero W Max c lens rows = Ok (olens, out) ->
  exists ys, padded ys olens out /\ (use_mask c = true -> padded_with zero ys olens out) /\ Forall2 (result_of_opt W c) xs ys.
Proof. apply pool_max. Qed.
Print Assumptions C75_max.

(** Average pooling without padding *)
Theorem C75_avg_valid {A B} (W : list (option A) -> B) mask_value zero c xs lens rows olens out :
  positive c -> pad c = Valid -> padded xs lens rows ->
  pool mask_value zero W Avg c lens rows = Ok (olens, out) ->
  exists ys, padded ys olens out /\ Forall2 (result_of_opt W c) xs ys.
Proof. apply pool_avg_valid. Qed.
Print Assumptions C75_avg_valid.

(** Average pooling with "same" and a stride, for an even size: the zeros around the sequence count as frames. *)
Theorem C75_avg_even {A B} (W : list (option A) -> B) mask_value zero c xs lens rows olens out :
  positive c -> pad c = Same -> 1 < stride c -> consistent c = true -> size c mod 2 = 0 -> use_mask c = true ->
  padded xs lens rows ->
  pool mask_value zero W Avg c lens rows = Ok (olens, out) ->
  exists ys, padded ys olens out /\ Forall2 (result_of (fun w => W (map Some w)) mask_value c) xs ys.
Proof. apply pool_avg_even. Qed.
Print Assumptions C75_avg_even.

(** When it raises no error, for "valid" and integer padding *)
Theorem C75_no_error {A B} (W : list (option A) -> B) v zero m c xs lens rows n :
  positive c -> pad c <> Same -> 2 * left_pad c <= (size c - 1) * dilation c + 1 -> (m = Avg -> dilation c = 1) ->
  padded xs lens rows -> windows c (list_max lens) n -> 0 < n ->
  is_ok (pool v zero W m c lens rows) = true.
Proof. apply pool_no_error. Qed.
Print Assumptions C75_no_error.

(** the sum and the number of the frames of a window *)
Definition avgW (l : list (option Z)) : Z * Z :=
  fold_right (fun o a => match o with Some x => (x + fst a, 1 + snd a)%Z | None => a end) (0, 0)%Z l.
Definition zmax (a b : option Z) : option Z :=
  match a, b with Some a, Some b => Some (Z.max a b) | Some a, None => Some a | None, b => b end.
Definition maxW (l : list (option (option Z))) : option Z :=
  fold_right (fun o a => match o with Some x => zmax x a | None => a end) None l.

(** Average pooling with "same" and an odd size: the masked frames of a shorter sequence count, the padding at the end of a
    single sequence does not. *)
Theorem C75_avg_same_refuted :
  exists c xs lens rows, positive c /\ pad c = Same /\ use_mask c = true /\ consistent c = true /\
    padded xs lens rows /\ nth_error xs 1 = Some [6]%Z /\
    pool 0%Z (0, 0)%Z avgW Avg c lens rows = Ok ([2; 1], [[(3, 2); (7, 2)]; [(6, 2); (0, 2)]]%Z) /\
    pool 0%Z (0, 0)%Z avgW Avg c [1] [[6]%Z] = Ok ([1], [[(6, 1)]]%Z).
Proof.
  exists (cf 3 2 1 Same true true), [[1; 2; 5]%Z; [6]%Z], [3; 1], [[1; 2; 5]%Z; [6; 9; 9]%Z]. facts. solve_padded.
Qed.
Print Assumptions C75_avg_same_refuted.

(** "same" without a stride, for an even size, always raises an error. *)
Theorem C75_same_even_refuted {A B} (W : list (option A) -> B) v zero m c xs lens rows :
  positive c -> pad c = Same -> stride c = 1 -> size c mod 2 = 0 -> padded xs lens rows -> xs <> [] ->
  is_ok (pool v zero W m c lens rows) = false.
Proof. apply pool_same_even. Qed.
Print Assumptions C75_same_even_refuted.

(** A pool size smaller than the stride raises an error for some lengths, before behavior version 24. *)
Theorem C75_old_same_refuted :
  exists c, positive c /\ pad c = Same /\ consistent c = false /\
    is_ok (pool 0%Z (0, 0)%Z avgW Avg c [3] [[1; 2; 3]%Z]) = true /\ is_ok (pool 0%Z (0, 0)%Z avgW Avg c [2] [[1; 2]%Z]) = false.
Proof. exists (cf 1 2 1 Same true false). facts. Qed.
Print Assumptions C75_old_same_refuted.

Lemma maxW_ignores : ignores None maxW.
Proof.
  intros l1 l2 H. induction H as [|a b l1 l2 Hab H IH]; [reflexivity|]. unfold maxW in *. cbn [fold_right]. rewrite IH.
  destruct Hab as [->|[[->| ->] [->| ->]]]; reflexivity.
Qed.
Example C75_ex :
  let c := cf 3 2 1 Same true true in let s := map (@Some Z) in
  positive c /\ consistent_same c /\ masks c /\ ignores None maxW /\
  padded [s [1; 2; 5]; s [-6; -8]]%Z [3; 2] [s [1; 2; 5]; s [-6; -8; -1]]%Z /\
  pool None (Some 0%Z) maxW Max c [3; 2] [s [1; 2; 5]; s [-6; -8; -1]]%Z = Ok ([2; 1], [s [2; 5]; s [-6; 0]]%Z).
Proof. cbv zeta. facts; [apply maxW_ignores|solve_padded]. Qed.
Example C75_ex_avg :
  pool 0%Z (0, 0)%Z avgW Avg (cf 4 3 1 Same true true) [5; 2] [[1; 2; 3; 4; 5]; [6; 7; 9; 9; 9]]%Z
  = Ok ([2; 1], [[(6, 4); (12, 4)]; [(13, 4); (0, 4)]]%Z).
Proof. vm_compute. reflexivity. Qed.
Example C75_ex_valid :
  pool 0%Z (0, 0)%Z avgW Avg (cf 2 2 1 Valid true true) [5; 2] [[1; 2; 3; 4; 5]; [6; 7; 9; 9; 9]]%Z
  = Ok ([2; 1], [[(3, 2); (7, 2)]; [(13, 2); (0, 2)]]%Z).
Proof. vm_compute. reflexivity. Qed.
