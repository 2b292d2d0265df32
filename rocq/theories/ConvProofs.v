From Verif Require Import Base ListLemmas ConvModel ConvSpec.
Local Open Scope nat_scope.

Lemma list_max_dim_value ls : dim_value ls = list_max ls.
Proof. reflexivity. Qed.

Lemma ceildiv_lt a s i : 0 < s -> (i < ceildiv a s <-> i * s < a).
Proof.
  intros Hs. unfold ceildiv. pose proof (Nat.div_mod (a + s - 1) s ltac:(lia)) as E.
  pose proof (Nat.mod_upper_bound (a + s - 1) s ltac:(lia)) as U.
  set (q := (a + s - 1) / s) in *. set (r := (a + s - 1) mod s) in *. clearbody q r. split; intros H; nia.
Qed.
Lemma ceildiv_mono a b s : 0 < s -> a <= b -> ceildiv a s <= ceildiv b s.
Proof. intros Hs H. unfold ceildiv. apply Nat.div_le_mono; lia. Qed.
Lemma ceildiv_1 a : ceildiv a 1 = a.
Proof. unfold ceildiv. rewrite Nat.div_1_r. lia. Qed.
Lemma ceildiv_floor a s : 0 < s -> 0 < a -> (a - 1) / s + 1 = ceildiv a s.
Proof. intros Hs H. unfold ceildiv. replace (a + s - 1) with (a - 1 + 1 * s) by lia. rewrite Nat.div_add by lia. lia. Qed.
Lemma ceildiv_0 s : 0 < s -> ceildiv 0 s = 0.
Proof. intros H. unfold ceildiv. apply Nat.div_small. lia. Qed.
Lemma ceildiv_pos a s : 0 < s -> 0 < a -> 0 < ceildiv a s.
Proof. intros Hs H. apply ceildiv_lt; lia. Qed.

Lemma windows_unique c n m m' : windows c n m -> windows c n m' -> m = m'.
Proof.
  intros H H'. destruct (Nat.lt_trichotomy m m') as [L|[L|L]]; auto; exfalso.
  - specialize (H m). specialize (H' m). destruct H as [_ H]. destruct H' as [H' _]. specialize (H (H' L)). lia.
  - specialize (H m'). specialize (H' m'). destruct H as [H _]. destruct H' as [_ H']. specialize (H' (H L)). lia.
Qed.

(** ** Paddings of the good settings *)
Definition lp (c : conf) := left_pad c.
Definition rp (c : conf) : nat :=
  match pad c with Valid => 0 | Pad q => q | Same => (size c - 1) * dilation c - (size c - 1) * dilation c / 2 end.
Definition out_len (c : conf) (n : nat) : nat := ceildiv (lp c + n + rp c - (size c - 1) * dilation c) (stride c).

Lemma out_len_windows c n : positive c -> windows c n (out_len c n).
Proof.
  intros (Hk & Hs & Hd) i. unfold out_len, window_fits. rewrite ceildiv_lt by auto. unfold lp, rp, left_pad.
  destruct (pad c); lia.
Qed.
Lemma out_len_mono c n n' : positive c -> n <= n' -> out_len c n <= out_len c n'.
Proof. intros (Hk & Hs & Hd) H. apply ceildiv_mono; lia. Qed.
Lemma out_len_max c ls : positive c -> ls <> [] -> list_max (map (out_len c) ls) = out_len c (list_max ls).
Proof.
  intros Hp Hne. induction ls as [|n ls IH]; [easy|]. cbn [map list_max fold_right].
  destruct ls as [|n' ls].
  - cbn. rewrite !Nat.max_0_r. reflexivity.
  - change (fold_right Nat.max 0 (map (out_len c) (n' :: ls))) with (list_max (map (out_len c) (n' :: ls))).
    change (fold_right Nat.max 0 (n' :: ls)) with (list_max (n' :: ls)). rewrite IH by discriminate.
    destruct (Nat.max_spec n (list_max (n' :: ls))) as [[L ->]|[L ->]].
    + apply Nat.max_r. apply out_len_mono; auto; lia.
    + apply Nat.max_l. apply out_len_mono; auto.
Qed.

Lemma odd_mod k : Nat.odd k = true <-> k mod 2 = 1.
Proof. rewrite Nat.odd_spec. split; [intros [m ->]; replace (2*m+1) with (1 + m * 2) by lia; rewrite Nat.mod_add by lia; reflexivity|]. intros H. exists (k / 2). pose proof (Nat.div_mod k 2 ltac:(lia)). lia. Qed.
Lemma odd_half k d : k mod 2 = 1 -> (k - 1) * d / 2 = k / 2 * d /\ (k - 1) * d = k / 2 * d + k / 2 * d.
Proof.
  intros H. pose proof (Nat.div_mod k 2 ltac:(lia)) as E. set (q := k / 2) in *.
  replace (k - 1) with (q * 2) by lia. split; [|nia]. replace (q * 2 * d) with (q * d * 2) by nia. apply Nat.div_mul. lia.
Qed.

Lemma mapM_total {X Y : Type} (f : X -> res Y) g l : (forall x, f x = Ok (g x)) -> mapM f l = Ok (map g l).
Proof. intros H. induction l as [|x l IH]; cbn; auto. rewrite H, IH. reflexivity. Qed.
Lemma mapM_map {X Y Z' : Type} (f : Y -> res Z') (g : X -> Y) l : mapM f (map g l) = mapM (fun x => f (g x)) l.
Proof. induction l as [|x l IH]; cbn; auto. rewrite IH. reflexivity. Qed.
Lemma mapM_ext {X Y : Type} (f g : X -> res Y) l : (forall x, In x l -> f x = g x) -> mapM f l = mapM g l.
Proof. intros H. induction l as [|x l IH]; cbn; auto. rewrite H by (left; auto). rewrite IH; auto. intros; apply H; right; auto. Qed.

Section Frames.
Context {A B : Type}.
Implicit Types (v : A).

Lemma frame_at_frame v x t : frame_at v x t = frame v x t.
Proof. reflexivity. Qed.

Lemma torch_pad_nat v l r row :
  torch_pad v (Z.of_nat l) (Z.of_nat r) row
  = Ok (map (fun t => frame v row (Z.of_nat t - Z.of_nat l)) (seq 0 (l + length row + r))).
Proof.
  unfold torch_pad. destruct (Z.ltb_spec (Z.of_nat (length row) + Z.of_nat l + Z.of_nat r) 0); [lia|].
  f_equal. replace (Z.to_nat (Z.of_nat (length row) + Z.of_nat l + Z.of_nat r)) with (l + length row + r) by lia. reflexivity.
Qed.
Lemma torch_pad_0 v row : torch_pad v 0 0 row = Ok row.
Proof.
  change 0%Z with (Z.of_nat 0). rewrite torch_pad_nat. f_equal. cbn [plus]. rewrite Nat.add_0_r.
  apply nth_error_ext. intros i. rewrite nth_error_map. destruct (Nat.lt_ge_cases i (length row)) as [L|L].
  - rewrite nth_error_seq by auto. cbn [option_map]. unfold frame.
    destruct (Z.ltb_spec (Z.of_nat (0 + i) - Z.of_nat 0) 0); [lia|].
    replace (Z.to_nat (Z.of_nat (0 + i) - Z.of_nat 0)) with i by lia. symmetry. apply nth_error_nth'. auto.
  - assert (nth_error (seq 0 (length row)) i = None) as -> by (apply nth_error_None; rewrite seq_length; auto).
    symmetry. apply nth_error_None. auto.
Qed.
Lemma nth_pad v l r row q w :
  q < l + length row + r ->
  nth q (map (fun t => frame v row (Z.of_nat t - Z.of_nat l)) (seq 0 (l + length row + r))) w = frame v row (Z.of_nat q - Z.of_nat l).
Proof.
  intros H. apply nth_error_nth. rewrite nth_error_map, nth_error_seq by auto. reflexivity.
Qed.

(** the result for a row with [l] and [r] frames of padding *)
Definition row_result (W : list A -> B) v (c : conf) l r row : res (list B) :=
  let N := l + length row + r in
  if N <? (size c - 1) * dilation c + 1 then Err OtherException
  else Ok (map (fun i => W (map (fun j => frame v row (position c l i j)) (seq 0 (size c))))
               (seq 0 (ceildiv (N - (size c - 1) * dilation c) (stride c)))).

Lemma conv_row W v c l r row :
  positive c ->
  torch_conv1d v W (size c) (stride c) (dilation c)
    (map (fun t => frame v row (Z.of_nat t - Z.of_nat l)) (seq 0 (l + length row + r)))
  = row_result W v c l r row.
Proof.
  intros (Hk & Hs & Hd). unfold torch_conv1d, row_result. rewrite map_length, seq_length.
  set (N := l + length row + r). set (e := (size c - 1) * dilation c).
  destruct (Nat.ltb_spec N (e + 1)) as [|L]; [reflexivity|]. f_equal.
  replace (N - e - 1) with (N - e - 1) by lia. rewrite ceildiv_floor by lia.
  apply map_ext_in. intros i Hi. apply in_seq in Hi. destruct Hi as [_ Hi]. cbn [plus] in Hi.
  apply ceildiv_lt in Hi; auto. f_equal. apply map_ext_in. intros j Hj. apply in_seq in Hj.
  assert (j * dilation c <= e) by (unfold e; nia).
  unfold N. rewrite nth_pad by (fold N; lia). reflexivity.
Qed.

Definition all_rows (W : list A -> B) v c lens rows : res (list nat * list (list B)) :=
  let* out := mapM (row_result W v c (lp c) (rp c)) rows in Ok (map (out_len c) lens, out).

(** out sizes of the paddings *)
Lemma out_size_calc c p n : positive c -> out_size c p n = calc_out_dim c p n.
Proof.
  intros (Hk & Hs & Hd). unfold out_size.
  destruct p as [| |[|q]]; cbn [andb]; rewrite ?andb_true_r, ?andb_false_r; cbn [orb];
    try (destruct (Nat.eqb_spec (size c) 1) as [E|]; destruct (Nat.eqb_spec (stride c) 1) as [E'|]; cbn [andb orb]; auto;
         cbn [calc_out_dim]; rewrite ?E, ?E', ceildiv_1; lia).
Qed.

Lemma backend_pad W v c p l r lens rows :
  positive c -> conv_pads c p (dim_value lens) = (Z.of_nat l, Z.of_nat r) ->
  backend_conv v W c p lens rows
  = let* out := mapM (row_result W v c l r) rows in Ok (map (out_size c p) lens, out).
Proof.
  intros Hp E. unfold backend_conv. rewrite E. f_equal. apply mapM_ext. intros row _. rewrite torch_pad_nat. cbn [bind].
  apply conv_row. auto.
Qed.

Lemma half_le e : e / 2 <= e.
Proof. apply Nat.div_le_upper_bound; lia. Qed.

Lemma conv_good W v c lens rows :
  positive c -> consistent_same c -> undilated_same c ->
  conv v W c lens rows = all_rows W v c lens (mask_rows c v lens rows).
Proof.
  intros Hp Hc Hu. unfold conv, all_rows. set (R := mask_rows c v lens rows). clearbody R.
  pose proof Hp as (Hk & Hs & Hd). unfold needs_consistent.
  assert (Hout : forall p, (forall n, calc_out_dim c p n = out_len c n) -> map (out_size c p) lens = map (out_len c) lens).
  { intros p H. apply map_ext. intros n. rewrite out_size_calc by auto. apply H. }
  destruct (pad c) as [| |q] eqn:Ep.
  - cbn [bind]. rewrite (backend_pad W v c Valid 0 0) by auto. rewrite Hout.
    + unfold lp, rp, left_pad. rewrite Ep. reflexivity.
    + intros n. unfold out_len, lp, rp, left_pad. rewrite Ep. cbn [calc_out_dim]. f_equal. lia.
  - destruct (Nat.eqb_spec (stride c) 1) as [E1|N1]; cbn [negb andb].
    + cbn [bind]. assert (Eo : map (out_size c Same) lens = map (out_len c) lens).
      { apply Hout. intros n. unfold out_len, lp, rp, left_pad. rewrite Ep. cbn [calc_out_dim]. f_equal.
        pose proof (half_le ((size c - 1) * dilation c)). lia. }
      assert (Epads : conv_pads c Same (dim_value lens) = (Z.of_nat (lp c), Z.of_nat (rp c))).
      { unfold conv_pads. rewrite E1. cbn [Nat.ltb Nat.leb]. unfold lp, rp, left_pad. rewrite Ep.
        destruct (Nat.odd (size c)) eqn:Eo'.
        - apply odd_mod in Eo'. destruct (odd_half (size c) (dilation c) Eo') as [H1 H2]. rewrite H1, H2.
          assert ((size c - 1) / 2 = size c / 2 * dilation c) as ->.
          { destruct (Hu Ep E1 Eo') as [->| ->]; [reflexivity|]. pose proof (odd_half (size c) 1 Eo') as [H3 _].
            rewrite Nat.mul_1_r in H3. rewrite H3. lia. }
          f_equal; lia.
        - pose proof (half_le ((size c - 1) * dilation c)). rewrite (Nat.mul_comm (dilation c)).
          set (e := (size c - 1) * dilation c) in *. f_equal; rewrite ?Nat2Z.inj_sub by lia; rewrite ?Nat2Z.inj_div; reflexivity. }
      rewrite (backend_pad W v c Same (lp c) (rp c)) by auto. rewrite Eo. reflexivity.
    + rewrite (Hc Ep) by lia. cbn [bind]. unfold consistent_same_padding.
      destruct (Nat.odd (size c)) eqn:Eo'; cbn [bind].
      * apply odd_mod in Eo'. destruct (odd_half (size c) (dilation c) Eo') as [H1 H2].
        rewrite (backend_pad W v c _ (size c / 2 * dilation c) (size c / 2 * dilation c)) by auto.
        assert (El : lp c = size c / 2 * dilation c) by (unfold lp, left_pad; rewrite Ep; auto).
        assert (Er : rp c = size c / 2 * dilation c) by (unfold rp; rewrite Ep; lia).
        rewrite El, Er. rewrite Hout; [reflexivity|]. intros n. unfold out_len. rewrite El, Er. reflexivity.
      * set (e := (size c - 1) * dilation c).
        rewrite (mapM_total _ (fun row => map (fun t => frame v row (Z.of_nat t - Z.of_nat (e / 2))) (seq 0 (e / 2 + length row + (e - e / 2)))))
          by (intros row; apply torch_pad_nat).
        cbn [bind]. assert (El : lp c = e / 2) by (unfold lp, left_pad; rewrite Ep; auto).
        assert (Er : rp c = e - e / 2) by (unfold rp; rewrite Ep; auto).
        unfold backend_conv. cbn [conv_pads]. rewrite mapM_map.
        rewrite (mapM_ext _ (row_result W v c (lp c) (rp c))).
        -- rewrite map_map. f_equal.
           assert (Em : map (fun n => out_size c (Pad 0) (e / 2 + n + (e - e / 2))) lens = map (out_len c) lens).
           { apply map_ext. intros n. rewrite out_size_calc by auto. unfold out_len. rewrite El, Er. cbn [calc_out_dim].
             fold e. f_equal. lia. }
           rewrite Em. reflexivity.
        -- intros row _. rewrite torch_pad_0. cbn [bind]. rewrite El, Er. apply conv_row. auto.
  - cbn [bind]. rewrite (backend_pad W v c (Pad q) q q) by auto. rewrite Hout.
    + unfold lp, rp, left_pad. rewrite Ep. reflexivity.
    + intros n. unfold out_len, lp, rp, left_pad. rewrite Ep. reflexivity.
Qed.

(** ** Masks *)
Lemma masked_app {T} (v : T) x junk : masked v (length x) (x ++ junk) = x ++ repeat v (length junk).
Proof.
  unfold masked. apply nth_error_ext. intros i. rewrite nth_error_map.
  destruct (Nat.lt_ge_cases i (length (x ++ junk))) as [L|L].
  - assert (E : nth_error (combine (seq 0 (length (x ++ junk))) (x ++ junk)) i = Some (i, nth i (x ++ junk) v)).
    { rewrite (nth_error_nth' _ (0, v)) by (rewrite combine_length, seq_length; lia).
      rewrite combine_nth by (rewrite seq_length; auto). rewrite seq_nth by auto. reflexivity. }
    rewrite E. cbn [option_map fst snd]. rewrite app_length in L. destruct (Nat.ltb_spec i (length x)).
    + rewrite nth_error_app1 by auto. rewrite app_nth1 by auto. symmetry. apply nth_error_nth'. auto.
    + rewrite nth_error_app2 by auto. symmetry. apply nth_error_repeat. lia.
  - assert (nth_error (combine (seq 0 (length (x ++ junk))) (x ++ junk)) i = None) as ->
      by (apply nth_error_None; rewrite combine_length, seq_length; lia).
    symmetry. apply nth_error_None. rewrite app_length, repeat_length in *. lia.
Qed.

Lemma mask_rows_padded {T} c (v : T) xs lens rows :
  padded xs lens rows -> use_mask c = true -> padded_with v xs lens (mask_rows c v lens rows).
Proof.
  intros [-> H] Hm. unfold mask_rows. rewrite Hm. split; auto. set (m := list_max _) in *. clearbody m.
  induction H as [|x row xs rows [[junk ->] Hl] H IH]; cbn [combine map fst snd]; constructor; auto.
  exists (length junk). rewrite masked_app. rewrite !app_length, repeat_length in *. auto.
Qed.
Lemma mask_rows_len {T} c (v : T) M xs rows :
  Forall2 (fun (_ row : list T) => length row = M) xs rows ->
  Forall2 (fun (_ row : list T) => length row = M) xs (mask_rows c v (map (@length T) xs) rows).
Proof.
  intros H. unfold mask_rows. destruct (use_mask c); auto. induction H; cbn [combine map fst snd]; constructor; auto.
  unfold masked. rewrite map_length, combine_length, seq_length, Nat.min_id. auto.
Qed.
Lemma padded_with_padded {T} (v : T) xs lens rows : padded_with v xs lens rows -> padded xs lens rows.
Proof. intros [-> H]. split; auto. eapply Forall2_impl'; [|exact H]. intros x row (k & E & Hl). split; [eexists; exact E|auto]. Qed.

Lemma frame_ext v x k t : frame v (x ++ repeat v k) t = frame v x t.
Proof.
  unfold frame. destruct (t <? 0)%Z; auto. set (i := Z.to_nat t).
  destruct (Nat.lt_ge_cases i (length x)) as [L|L].
  - apply app_nth1. auto.
  - rewrite app_nth2 by auto. rewrite (nth_overflow x) by auto. rewrite nth_repeat. reflexivity.
Qed.

(** what the rows are after the mask *)
Definition good_row v c x row : Prop :=
  (exists junk, row = x ++ junk) /\
  (forall i j, i < out_len c (length x) -> j < size c ->
     frame v row (position c (lp c) i j) = frame v x (position c (lp c) i j)).

Lemma good_rows v c xs lens rows :
  positive c -> masks c -> padded xs lens rows ->
  Forall2 (fun x row => good_row v c x row /\ length row = list_max lens) xs (mask_rows c v lens rows).
Proof.
  intros Hp [Hm|Hv] H.
  - apply (mask_rows_padded c v) in H; auto. destruct H as [-> H]. eapply Forall2_impl'; [|exact H].
    intros x row (k & -> & Hl). split; auto. split; [eexists; reflexivity|]. intros. apply frame_ext.
  - destruct (use_mask c) eqn:Hm.
    + apply (mask_rows_padded c v) in H; auto. destruct H as [-> H]. eapply Forall2_impl'; [|exact H].
      intros x row (k & -> & Hl). split; auto. split; [eexists; reflexivity|]. intros. apply frame_ext.
    + unfold mask_rows. rewrite Hm. destruct H as [-> H]. eapply Forall2_impl'; [|exact H].
      intros x row ([junk ->] & Hl). split; auto. split; [eexists; reflexivity|]. intros i j Hi Hj.
      apply (out_len_windows c _ Hp) in Hi. unfold window_fits in Hi. rewrite Hv in Hi.
      unfold frame, position, lp, left_pad. rewrite Hv. destruct (Z.ltb_spec (Z.of_nat (i * stride c + j * dilation c) - Z.of_nat 0) 0); auto.
      apply app_nth1. assert (j * dilation c <= (size c - 1) * dilation c) by nia. lia.
Qed.

Definition frames_result (W : list A -> B) v c n row : list B :=
  map (fun i => W (map (fun j => frame v row (position c (lp c) i j)) (seq 0 (size c)))) (seq 0 n).

Lemma seq_split' a b : a <= b -> seq 0 b = seq 0 a ++ seq a (b - a).
Proof. intros H. replace b with (a + (b - a)) at 1 by lia. apply seq_app. Qed.

Lemma frames_result_prefix W v c x row L :
  positive c -> good_row v c x row -> length x <= L ->
  exists junk, frames_result W v c (out_len c L) row = frames_result W v c (out_len c (length x)) x ++ junk.
Proof.
  intros Hp [_ Hf] Hl. unfold frames_result.
  rewrite (seq_split' (out_len c (length x)) (out_len c L)) by (apply out_len_mono; auto).
  rewrite map_app. eexists. f_equal. apply map_ext_in. intros i Hi. apply in_seq in Hi. f_equal.
  apply map_ext_in. intros j Hj. apply in_seq in Hj. apply Hf; lia.
Qed.

Lemma frames_result_of W v c x : positive c -> result_of W v c x (frames_result W v c (out_len c (length x)) x).
Proof.
  intros Hp. unfold result_of, frames_result. rewrite map_length, seq_length. split; [apply out_len_windows; auto|].
  intros i Hi. rewrite nth_error_map, nth_error_seq by auto. reflexivity.
Qed.
Lemma result_of_frames W v c x y : positive c -> result_of W v c x y -> y = frames_result W v c (out_len c (length x)) x.
Proof.
  intros Hp [Hw Hy]. assert (El : length y = out_len c (length x)) by (eapply windows_unique; [exact Hw|apply out_len_windows; auto]).
  apply nth_error_ext. intros i. destruct (Nat.lt_ge_cases i (length y)) as [L|L].
  - rewrite Hy by auto. unfold frames_result. rewrite nth_error_map, nth_error_seq by (rewrite <- El; auto). reflexivity.
  - transitivity (@None B); [apply nth_error_None; auto|]. symmetry. apply nth_error_None. unfold frames_result.
    rewrite map_length, seq_length. lia.
Qed.

Lemma row_result_frames W v c row y :
  row_result W v c (lp c) (rp c) row = Ok y -> y = frames_result W v c (out_len c (length row)) row.
Proof.
  unfold row_result. destruct (_ <? _); [discriminate|]. intros E. apply Ok_inj in E. subst y. reflexivity.
Qed.

Lemma le_list_max n ls : In n ls -> n <= list_max ls.
Proof. intros H. pose proof (proj1 (list_max_le ls (list_max ls)) (le_n _)) as F. rewrite Forall_forall in F. auto. Qed.

(** the batch is the padded results *)
Lemma batch_results {T U : Type} (c : conf) (R : list T -> list U -> Prop)
      xs lens out :
  positive c -> lens = map (@length T) xs ->
  Forall2 (fun x o => length o = out_len c (list_max lens) /\
                      exists y junk, o = y ++ junk /\ R x y /\ length y = out_len c (length x)) xs out ->
  exists ys, padded ys (map (out_len c) lens) out /\ Forall2 R xs ys.
Proof.
  intros Hp El H.
  assert (G : forall m, Forall2 (fun x o => length o = m /\ exists y junk, o = y ++ junk /\ R x y /\ length y = out_len c (length x)) xs out ->
     exists ys, map (@length U) ys = map (fun x => out_len c (length x)) xs /\
       Forall2 (fun y row => (exists junk, row = y ++ junk) /\ length row = m) ys out /\ Forall2 R xs ys).
  { clear. intros m. induction 1 as [|x o xs out (Hl & y & junk & E & HR & Hy) H IH].
    - exists []. repeat split; constructor.
    - destruct IH as (ys & H1 & H2 & H3). exists (y :: ys). cbn [map]. rewrite Hy, H1.
      split; [reflexivity|]. split; constructor; auto. split; [eexists; exact E|auto]. }
  destruct (G _ H) as (ys & H1 & H2 & H3). exists ys. split; auto. split; [rewrite El, map_map; auto|].
  destruct xs as [|x0 xs].
  - inversion H3; subst. inversion H2; subst. constructor.
  - rewrite out_len_max; auto. subst lens. discriminate.
Qed.

Lemma Forall2_mapM {X Y Z' : Type} (P : X -> Y -> Prop) (f : Y -> res Z') l l' out :
  Forall2 P l l' -> mapM f l' = Ok out -> Forall2 (fun x z => exists y, P x y /\ f y = Ok z) l out.
Proof.
  intros H. revert out. induction H as [|x y l l' Hx H IH]; intros out E.
  - apply Ok_inj in E. subst. constructor.
  - cbn in E. destruct (f y) as [z|] eqn:Ef; [|discriminate]. cbn [bind] in E.
    destruct (mapM f l') as [zs|] eqn:Em; [|discriminate]. cbn [bind] in E. apply Ok_inj in E. subst. constructor; eauto.
Qed.

Lemma in_len {T} (xs : list (list T)) x : In x xs -> length x <= list_max (map (@length T) xs).
Proof. intros H. apply le_list_max. apply in_map. auto. Qed.

Theorem conv_batch (W : list A -> B) v c xs lens rows olens out :
  positive c -> consistent_same c -> undilated_same c -> masks c -> padded xs lens rows ->
  conv v W c lens rows = Ok (olens, out) ->
  exists ys, padded ys olens out /\ Forall2 (result_of W v c) xs ys.
Proof.
  intros Hp Hc Hu Hm Hpad E. rewrite conv_good in E by auto. unfold all_rows in E.
  pose proof (good_rows v c xs lens rows Hp Hm Hpad) as Hg.
  destruct (mapM _ _) as [o|] eqn:Em; [|discriminate]. cbn [bind] in E. apply Ok_inj in E. injection E as <- <-.
  pose proof (Forall2_mapM _ _ _ _ _ Hg Em) as H. destruct Hpad as [El _].
  eapply (batch_results c); [auto|exact El|].
  assert (Hx : Forall (fun x => length x <= list_max lens) xs) by (rewrite El; apply Forall_forall; intros; apply in_len; auto).
    clear Hg Em El. revert Hx. induction H as [|x y xs out (row & [Hg Hl] & Er) H IH]; intros Hx; constructor; [|inversion Hx; auto].
    apply row_result_frames in Er. rewrite Hl in Er. subst y. split; [unfold frames_result; rewrite map_length, seq_length; auto|].
    destruct (frames_result_prefix W v c x row (list_max lens) Hp Hg) as [junk Ej]; [inversion Hx; auto|].
    exists (frames_result W v c (out_len c (length x)) x), junk. split; [exact Ej|].
    split; [apply frames_result_of; auto|]. unfold frames_result. rewrite map_length, seq_length. auto.
Qed.

(** the out sizes do not need the masks *)
Theorem conv_sizes (W : list A -> B) v c xs lens rows olens out :
  positive c -> consistent_same c -> undilated_same c -> padded xs lens rows ->
  conv v W c lens rows = Ok (olens, out) ->
  Forall2 (windows c) lens olens /\ length out = length lens /\ Forall (fun o => length o = list_max olens) out.
Proof.
  intros Hp Hc Hu Hpad E. rewrite conv_good in E by auto. unfold all_rows in E.
  destruct Hpad as [El H].
  assert (Hr : Forall2 (fun (_ row : list A) => length row = list_max lens) xs (mask_rows c v lens rows)).
  { pose proof (mask_rows_len c v (list_max lens) xs rows) as G. rewrite <- El in G. apply G. eapply Forall2_impl'; [|exact H]. intros x row [_ Hl]. exact Hl. }
  destruct (mapM _ _) as [o|] eqn:Em; [|discriminate]. cbn [bind] in E.
  apply Ok_inj in E. injection E as <- <-.
  pose proof (Forall2_mapM _ _ _ _ _ Hr Em) as Ho. cbv beta in Ho. split; [|split].
  - clear - Hp. induction lens; constructor; auto. apply out_len_windows; auto.
  - rewrite <- (Forall2_len _ _ _ Ho), El, map_length. auto.
  - destruct lens as [|n0 lens'].
    + destruct xs; [|discriminate]. inversion Ho. constructor.
    + rewrite out_len_max by (auto; discriminate). revert Ho. generalize (n0 :: lens'). clear. intros lens Ho.
      induction Ho as [|x y xs o (row & Hl & Er) Ho IH]; constructor; auto. apply row_result_frames in Er. subst y.
      unfold frames_result. rewrite map_length, seq_length. congruence.
Qed.

Lemma Forall2_nth_l {X Y} (R : X -> Y -> Prop) l l' i x :
  Forall2 R l l' -> nth_error l i = Some x -> exists y, nth_error l' i = Some y /\ R x y.
Proof.
  intros H. revert i. induction H as [|a b l l' Hab H IH]; intros [|i] E; cbn in *; try discriminate; eauto.
  injection E as ->. eauto.
Qed.
Lemma mapM_is_ok {X Y} (f : X -> res Y) l : is_ok (mapM f l) = forallb (fun x => is_ok (f x)) l.
Proof.
  induction l as [|x l IH]; cbn; auto. destruct (f x); cbn; auto. destruct (mapM f l); cbn in *; auto.
Qed.
Lemma bind_is_ok {X Y} (x : res X) (f : X -> res Y) : (forall a, is_ok (f a) = true) -> is_ok (bind x f) = is_ok x.
Proof. intros H. destruct x; cbn; auto. Qed.

Theorem conv_no_error (W : list A -> B) v c xs lens rows m :
  positive c -> consistent_same c -> undilated_same c -> padded xs lens rows -> xs <> [] ->
  windows c (list_max lens) m -> (is_ok (conv v W c lens rows) = true <-> 0 < m).
Proof.
  intros Hp Hc Hu Hpad Hne Hw. rewrite conv_good by auto. unfold all_rows.
  assert (m = out_len c (list_max lens)) as -> by (eapply windows_unique; [exact Hw|apply out_len_windows; auto]).
  rewrite bind_is_ok by reflexivity. rewrite mapM_is_ok. destruct Hpad as [El H].
  assert (Hr : Forall2 (fun (_ row : list A) => length row = list_max lens) xs (mask_rows c v lens rows)).
  { pose proof (mask_rows_len c v (list_max lens) xs rows) as G. rewrite <- El in G. apply G. eapply Forall2_impl'; [|exact H]. intros x row [_ Hl]. exact Hl. }
  assert (Hrow : forall row, length row = list_max lens ->
            (is_ok (row_result W v c (lp c) (rp c) row) = true <-> 0 < out_len c (list_max lens))).
  { intros row Hl. destruct Hp as (Hk & Hs & Hd). unfold row_result, out_len. rewrite Hl. rewrite ceildiv_lt by auto.
    set (e := (size c - 1) * dilation c). destruct (Nat.ltb_spec (lp c + list_max lens + rp c) (e + 1)); cbn [is_ok];
      split; intros; try discriminate; try lia; reflexivity. }
  destruct Hr as [|x row xs rs Hl Hr]; [easy|]. cbn [forallb]. rewrite andb_true_iff, (Hrow _ Hl).
  split; [tauto|]. intros Hm. split; auto. apply forallb_forall. intros row' Hin.
  destruct (In_nth_error _ _ Hin) as [k Hk]. apply Hrow; auto. clear - Hr Hk. revert k Hk.
  induction Hr; intros [|k] Hk; cbn in Hk; try discriminate; [injection Hk as <-; auto|eauto].
Qed.

(** ** Pooling *)
Definition pool_row (W : list (option A) -> B) c (l n : nat) row : list B :=
  map (fun i => W (map (fun j => frame_opt row (position c l i j)) (seq 0 (size c)))) (seq 0 n).

Lemma torch_pool_floor W c p row y :
  positive c -> torch_pool1d W (size c) (stride c) (dilation c) (Z.of_nat p) false row = Ok y ->
  y = pool_row W c p (ceildiv (p + length row + p - (size c - 1) * dilation c) (stride c)) row.
Proof.
  intros (Hk & Hs & Hd) E. unfold torch_pool1d in E. set (e := (size c - 1) * dilation c) in *. cbn [andb] in E.
  destruct (_ || _); [discriminate|].
  set (out := ((Z.of_nat (length row) + Z.of_nat p + Z.of_nat p - Z.of_nat e - 1 + 0) / Z.of_nat (stride c) + 1)%Z) in *.
  destruct (Z.ltb_spec out 1) as [|L]; [discriminate|]. apply Ok_inj in E. subst y.
  assert (Hn : e + 1 <= p + length row + p).
  { destruct (Nat.le_gt_cases (e + 1) (p + length row + p)) as [|G]; auto. exfalso.
    assert (H : (Z.of_nat (length row) + Z.of_nat p + Z.of_nat p - Z.of_nat e - 1 + 0 < 0)%Z) by lia.
    assert ((Z.of_nat (length row) + Z.of_nat p + Z.of_nat p - Z.of_nat e - 1 + 0) / Z.of_nat (stride c) < 0)%Z
      by (apply Z.div_lt_upper_bound; lia). unfold out in L. lia. }
  assert (Eo : Z.to_nat out = ceildiv (p + length row + p - e) (stride c)).
  { rewrite <- ceildiv_floor by lia. unfold out.
    replace (Z.of_nat (length row) + Z.of_nat p + Z.of_nat p - Z.of_nat e - 1 + 0)%Z
      with (Z.of_nat (p + length row + p - e - 1)) by lia.
    rewrite <- Nat2Z.inj_div. set (w := (p + length row + p - e - 1) / stride c). clearbody w. lia. }
  rewrite Eo. reflexivity.
Qed.

Lemma torch_pool_ceil1 W c p row y :
  positive c -> stride c = 1 ->
  torch_pool1d W (size c) (stride c) (dilation c) (Z.of_nat p) true row = Ok y ->
  y = pool_row W c p (p + length row + p - (size c - 1) * dilation c) row.
Proof.
  intros (Hk & Hs & Hd) E1 E. unfold torch_pool1d in E. set (e := (size c - 1) * dilation c) in *. cbn [andb] in E.
  destruct (_ || _) eqn:Ep in E; [discriminate|]. rewrite E1 in E. change (Z.of_nat 1) with 1%Z in E.
  rewrite Z.div_1_r in E. apply orb_false_iff in Ep. destruct Ep as [_ Ep]. apply Z.ltb_ge in Ep.
  assert (2 * Z.of_nat p <= Z.of_nat e + 1)%Z by (pose proof (Z.mul_div_le (Z.of_nat e + 1) 2 ltac:(lia)); lia).
  destruct (Z.leb_spec (Z.of_nat (length row) + Z.of_nat p)
     ((Z.of_nat (length row) + Z.of_nat p + Z.of_nat p - Z.of_nat e - 1 + (1 - 1) + 1 - 1) * 1)) as [G|G]; [lia|].
  destruct (_ <? _)%Z; [discriminate|]. apply Ok_inj in E. subst y. unfold pool_row, position. rewrite E1.
  replace (p + length row + p - e)
    with (Z.to_nat (Z.of_nat (length row) + Z.of_nat p + Z.of_nat p - Z.of_nat e - 1 + (1 - 1) + 1)) by lia. reflexivity.
Qed.

(** what a window sees of a row *)
Definition pool_window v c row i : list (option A) :=
  map (fun j => if needs_consistent c && Nat.even (size c) then Some (frame v row (position c (lp c) i j))
                else frame_opt row (position c (lp c) i j)) (seq 0 (size c)).
Definition pool_result (W : list (option A) -> B) v c n row : list B := map (fun i => W (pool_window v c row i)) (seq 0 n).

Lemma backend_pool_Ok (W : list (option A) -> B) m c p lens rows olens out :
  backend_pool W m c p lens rows = Ok (olens, out) ->
  olens = map (out_size c p) lens /\ Forall (fun o => length o = list_max olens) out /\
  Forall2 (fun row o => torch_pool1d W (size c) (stride c) (dilation c) (fst (pool_pads c p (list_max lens)))
                          (snd (pool_pads c p (list_max lens))) row = Ok o) rows out.
Proof.
  unfold backend_pool. rewrite list_max_dim_value. destruct (pool_pads c p (list_max lens)) as [q cm]. cbn [fst snd].
  destruct (match m with Max => _ | Avg => _ end); [|discriminate]. cbn [bind].
  destruct (mapM _ _) as [o|] eqn:Em; [|discriminate]. cbn [bind]. destruct (forallb _ _) eqn:Ef; [|discriminate].
  intros E. apply Ok_inj in E. injection E as <- <-. split; auto. split.
  - rewrite forallb_forall in Ef. apply Forall_forall. intros x Hx. apply Ef in Hx. apply Nat.eqb_eq in Hx. exact Hx.
  - apply mapM_Ok_Forall2. auto.
Qed.

Lemma Forall2_Forall_l {X Y} (P : X -> Prop) (R : X -> Y -> Prop) l l' :
  Forall P l -> Forall2 R l l' -> Forall2 (fun x y => P x /\ R x y) l l'.
Proof. intros HP H. induction H; constructor; inversion HP; auto. Qed.
Lemma Forall2_Forall_r {X Y} (P : Y -> Prop) (R : X -> Y -> Prop) l l' :
  Forall P l' -> Forall2 R l l' -> Forall2 (fun x y => P y /\ R x y) l l'.
Proof. intros HP H. induction H; constructor; inversion HP; auto. Qed.
Lemma Forall2_map_l' {X X' Y} (f : X' -> X) (R : X -> Y -> Prop) l l' :
  Forall2 R (map f l) l' -> Forall2 (fun x y => R (f x) y) l l'.
Proof.
  revert l'. induction l as [|x l IH]; intros l' H; inversion H; subst; constructor; auto.
Qed.

Lemma pool_out (W : list (option A) -> B) v zero m c lens rows olens out :
  positive c -> consistent_same c ->
  Forall (fun row => length row = list_max lens) rows ->
  pool v zero W m c lens rows = Ok (olens, out) ->
  Forall (fun row => length row = list_max lens) (mask_rows c v lens rows) ->
  exists out0, olens = map (out_len c) lens /\
    Forall2 (fun row o => o = pool_result W v c (out_len c (list_max lens)) row) (mask_rows c v lens rows) out0 /\
    out = match m with Max => mask_rows c zero olens out0 | Avg => out0 end.
Proof.
  intros Hp Hc Hr E HR. unfold pool in E. set (R := mask_rows c v lens rows) in *. clearbody R. clear Hr.
  pose proof Hp as (Hk & Hs & Hd). set (e := (size c - 1) * dilation c) in *.
  assert (Hplain : forall p, (forall n, calc_out_dim c p n = out_len c n) -> needs_consistent c && Nat.even (size c) = false ->
     fst (pool_pads c p (list_max lens)) = Z.of_nat (lp c) -> snd (pool_pads c p (list_max lens)) = false ->
     lp c + list_max lens + lp c - e = lp c + list_max lens + rp c - e ->
     forall ol o0, backend_pool W m c p lens R = Ok (ol, o0) ->
     ol = map (out_len c) lens /\ Forall2 (fun row o => o = pool_result W v c (out_len c (list_max lens)) row) R o0).
  { intros p Ho Hne E1 E2 Elr ol o0 Eb. apply backend_pool_Ok in Eb. destruct Eb as (-> & _ & H). rewrite E1, E2 in H.
    split; [apply map_ext; intros n; rewrite out_size_calc by auto; apply Ho|].
    eapply Forall2_impl'; [|exact (Forall2_Forall_l _ _ _ _ HR H)]. intros row o [Hl Ht].
    apply torch_pool_floor in Ht; auto. subst o. unfold pool_row, pool_result, pool_window. rewrite Hne, Hl. fold e.
    rewrite Elr. reflexivity. }
  assert (Hend : forall ol o0, ol = map (out_len c) lens ->
     Forall2 (fun row o => o = pool_result W v c (out_len c (list_max lens)) row) R o0 ->
     match m with Max => Ok (ol, mask_rows c zero ol o0) | Avg => Ok (ol, o0) end = Ok (olens, out) ->
     exists out0, olens = map (out_len c) lens /\
       Forall2 (fun row o => o = pool_result W v c (out_len c (list_max lens)) row) R out0 /\
       out = match m with Max => mask_rows c zero olens out0 | Avg => out0 end).
  { intros ol o0 E1 E2 E3. exists o0. destruct m; apply Ok_inj in E3; injection E3 as <- <-; auto. }
  destruct (needs_consistent c) eqn:En.
  - assert (Ep : pad c = Same) by (unfold needs_consistent in En; destruct (pad c); auto; discriminate).
    assert (Epl : lp c = e / 2) by (unfold lp, left_pad; rewrite Ep; auto).
    assert (Epr : rp c = e - e / 2) by (unfold rp; rewrite Ep; auto).
    unfold consistent_same_padding in E. destruct (Nat.odd (size c)) eqn:Eo.
    + cbn [bind] in E. destruct (backend_pool _ _ _ _ _ _) as [[ol o0]|] eqn:Eb; [|discriminate]. cbn [bind] in E.
      apply odd_mod in Eo. destruct (odd_half (size c) (dilation c) Eo) as [H1 H2]. fold e in H1, H2.
      destruct (Hplain (Pad (size c / 2 * dilation c))) with (ol := ol) (o0 := o0) as [G1 G2]; auto.
      * intros n. unfold out_len. rewrite Epl, Epr. cbn [calc_out_dim]. fold e. f_equal. lia.
      * apply odd_mod in Eo. rewrite <- Nat.negb_odd, Eo. reflexivity.
      * cbn [pool_pads fst]. congruence.
      * lia.
      * eapply Hend; eauto.
    + fold e in E. rewrite (mapM_total _ (fun row => map (fun t => frame v row (Z.of_nat t - Z.of_nat (e / 2))) (seq 0 (e / 2 + length row + (e - e / 2)))))
          in E by (intros row; apply torch_pad_nat).
      cbn [bind] in E. destruct (backend_pool _ _ _ _ _ _) as [[ol o0]|] eqn:Eb; [|discriminate]. cbn [bind] in E.
      apply backend_pool_Ok in Eb. cbn [pool_pads fst snd] in Eb. destruct Eb as (Eol & _ & H). apply Forall2_map_l' in H.
      eapply Hend; [| |exact E].
      * rewrite Eol, map_map. apply map_ext. intros n. rewrite out_size_calc by auto. unfold out_len. rewrite Epl, Epr.
        cbn [calc_out_dim]. fold e. f_equal. lia.
      * eapply Forall2_impl'; [|exact (Forall2_Forall_l _ _ _ _ HR H)]. intros row o [Hl Ht].
        apply torch_pool_floor in Ht; auto. subst o. rewrite map_length, seq_length. fold e. unfold pool_row, pool_result, pool_window.
        rewrite En, <- Nat.negb_odd, Eo. cbn [negb andb]. unfold out_len. rewrite Epl, Epr. fold e. rewrite Hl.
        replace (0 + (e / 2 + list_max lens + (e - e / 2)) + 0 - e) with (e / 2 + list_max lens + (e - e / 2) - e) by lia.
        apply map_ext_in. intros i Hi. apply in_seq in Hi. destruct Hi as [_ Hi]. cbn [plus] in Hi. apply ceildiv_lt in Hi; auto.
        f_equal. apply map_ext_in. intros j Hj. apply in_seq in Hj. assert (j * dilation c <= e) by (unfold e; nia).
        unfold frame_opt, position at 1 2. destruct (Z.ltb_spec (Z.of_nat (i * stride c + j * dilation c) - Z.of_nat 0) 0); [lia|].
        replace (Z.to_nat (Z.of_nat (i * stride c + j * dilation c) - Z.of_nat 0)) with (i * stride c + j * dilation c) by lia.
        rewrite nth_error_map, nth_error_seq by lia. reflexivity.
  - cbn [bind] in E. destruct (backend_pool _ _ _ _ _ _) as [[ol o0]|] eqn:Eb; [|discriminate]. cbn [bind] in E.
    destruct (pad c) as [| |q] eqn:Ep.
    + destruct (Hplain Valid) with (ol := ol) (o0 := o0) as [G1 G2]; auto.
      * intros n. unfold out_len, lp, rp, left_pad. rewrite Ep. cbn [calc_out_dim]. f_equal; lia.
      * unfold lp, left_pad. rewrite Ep. reflexivity.
      * unfold lp, rp, left_pad. rewrite Ep. reflexivity.
      * eapply Hend; eauto.
    + assert (E1 : stride c = 1).
      { unfold needs_consistent in En. rewrite Ep in En. destruct (Nat.eqb_spec (stride c) 1); auto.
        rewrite (Hc Ep) in En by lia. discriminate. }
      apply backend_pool_Ok in Eb. destruct Eb as (Eol & Hlen & H). cbn [pool_pads fst snd] in H. rewrite E1 in H.
      change (Z.of_nat 1) with 1%Z in H. rewrite Z.mod_1_r in H.
      replace ((Z.of_nat (size c) - 1 - 0) / 2)%Z with (Z.of_nat ((size c - 1) / 2)) in H
        by (rewrite Nat2Z.inj_div; f_equal; lia).
      set (p := (size c - 1) / 2) in *.
      assert (Eol' : ol = lens).
      { rewrite Eol. unfold out_size. rewrite E1. cbn [Nat.eqb andb]. rewrite orb_true_r. apply map_id. }
      eapply Hend; [| |exact E].
      * rewrite Eol', <- (map_id lens) at 1. apply map_ext. intros n. unfold out_len, lp, rp, left_pad. rewrite Ep, E1, ceildiv_1.
        fold e. pose proof (half_le e). lia.
      * rewrite Eol' in Hlen.
        eapply Forall2_impl'; [|exact (Forall2_Forall_r _ _ _ _ Hlen (Forall2_Forall_l _ _ _ _ HR H))].
        cbv beta. intros row o [Ho [Hl Ht]]. rewrite <- E1 in Ht at 1. apply torch_pool_ceil1 in Ht; auto. subst o.
        fold e in Ho |- *. unfold pool_row in Ho. rewrite map_length, seq_length, Hl in Ho.
        unfold pool_row, pool_result, pool_window. rewrite En. cbn [andb]. rewrite Hl.
        assert (Hpos : list_max lens = 0 \/ p + p = e) by lia.
        destruct Hpos as [Z0|Epp].
        -- unfold out_len. fold e. rewrite Z0 in *. rewrite Ho. assert (lp c + 0 + rp c - e = 0) as ->.
           { unfold lp, rp, left_pad. rewrite Ep. fold e. pose proof (half_le e). lia. } rewrite ceildiv_0 by lia. reflexivity.
        -- assert (lp c = p) as -> by (unfold lp, left_pad; rewrite Ep; fold e; rewrite <- Epp; replace (p + p) with (p * 2) by lia; apply Nat.div_mul; lia).
           assert (out_len c (list_max lens) = list_max lens) as ->.
           { unfold out_len, lp, rp, left_pad. rewrite Ep, E1, ceildiv_1. fold e. pose proof (half_le e). lia. }
           replace (p + list_max lens + p - e) with (list_max lens) by lia. reflexivity.
    + destruct (Hplain (Pad q)) with (ol := ol) (o0 := o0) as [G1 G2]; auto.
      * intros n. unfold out_len, lp, rp, left_pad. rewrite Ep. reflexivity.
      * unfold lp, left_pad. rewrite Ep. reflexivity.
      * unfold lp, rp, left_pad. rewrite Ep. reflexivity.
      * eapply Hend; eauto.
Qed.

Lemma pool_result_prefix (W : list (option A) -> B) v c (x : list A) row L (win : nat -> list (option A)) :
  positive c -> length x <= L ->
  (forall i, i < out_len c (length x) -> W (pool_window v c row i) = W (win i)) ->
  exists junk, pool_result W v c (out_len c L) row = map (fun i => W (win i)) (seq 0 (out_len c (length x))) ++ junk.
Proof.
  intros Hp Hl Hf. unfold pool_result.
  rewrite (seq_split' (out_len c (length x)) (out_len c L)) by (apply out_len_mono; auto).
  rewrite map_app. eexists. f_equal. apply map_ext_in. intros i Hi. apply in_seq in Hi. apply Hf. lia.
Qed.

Lemma padded_len {T} (xs : list (list T)) lens rows : padded xs lens rows ->
  Forall2 (fun (_ row : list T) => length row = list_max lens) xs rows.
Proof. intros [_ H]. eapply Forall2_impl'; [|exact H]. intros x row [_ Hl]. exact Hl. Qed.
Lemma Forall2_right {X Y} (P : Y -> Prop) (l : list X) l' : Forall2 (fun _ y => P y) l l' -> Forall P l'.
Proof. induction 1; constructor; auto. Qed.

(** every kind of pooling: [win] is what [W] sees of a single sequence *)
Lemma pool_general (W : list (option A) -> B) v zero m c xs lens rows olens out (win : list A -> nat -> list (option A)) :
  positive c -> consistent_same c -> padded xs lens rows ->
  Forall2 (fun x row => forall i, i < out_len c (length x) -> W (pool_window v c row i) = W (win x i)) xs (mask_rows c v lens rows) ->
  pool v zero W m c lens rows = Ok (olens, out) ->
  let ys := map (fun x => map (fun i => W (win x i)) (seq 0 (out_len c (length x)))) xs in
  padded ys olens out /\ (m = Max -> use_mask c = true -> padded_with zero ys olens out).
Proof.
  intros Hp Hc Hpad Hw E ys. pose proof (padded_len _ _ _ Hpad) as Hl.
  assert (Hr : Forall2 (fun (_ row : list A) => length row = list_max lens) xs (mask_rows c v lens rows)).
  { destruct Hpad as [El _]. pose proof (mask_rows_len c v (list_max lens) xs rows) as G. rewrite <- El in G. auto. }
  apply pool_out in E; auto; try (eapply Forall2_right; eassumption). destruct E as (out0 & -> & Ho & Eout).
  assert (P0 : padded ys (map (out_len c) lens) out0).
  { destruct Hpad as [El _]. split.
    { rewrite El. unfold ys. rewrite !map_map. apply map_ext. intros x. rewrite map_length, seq_length. reflexivity. }
    unfold ys. clear ys. assert (Hne : xs = [] \/ xs <> []) by (destruct xs; [left; auto|right; discriminate]).
    destruct Hne as [-> |Hne].
    - inversion Hr as [E0 E1|]. rewrite <- E1 in Ho. inversion Ho. constructor.
    - rewrite out_len_max by (auto; rewrite El; destruct xs; easy).
      assert (Hx : Forall (fun x => length x <= list_max lens) xs) by (rewrite El; apply Forall_forall; intros; apply in_len; auto).
      clear Hl El Hne Eout. revert out0 Ho. generalize dependent (mask_rows c v lens rows).
      intros R Hw Hr. revert Hx. induction Hw as [|x row xs R Hx Hw IH]; intros Hle out0 Ho; inversion Ho; subst; constructor.
      + split; [|unfold pool_result; rewrite map_length, seq_length; auto].
        apply pool_result_prefix; auto. inversion Hle; auto.
      + inversion Hr; inversion Hle; subst. eapply IH; eauto. }
  split.
  - destruct m; subst out; auto. destruct (use_mask c) eqn:Em.
    + eapply padded_with_padded. apply mask_rows_padded; eauto.
    + unfold mask_rows. rewrite Em. auto.
  - intros -> Hm. subst out. apply mask_rows_padded; auto.
Qed.

Lemma results_opt (W : list (option A) -> B) c xs :
  positive c ->
  Forall2 (result_of_opt W c) xs
    (map (fun x => map (fun i => W (map (fun j => frame_opt x (position c (left_pad c) i j)) (seq 0 (size c)))) (seq 0 (out_len c (length x)))) xs).
Proof.
  intros Hp. induction xs as [|x xs IH]; cbn [map]; constructor; auto. unfold result_of_opt. rewrite map_length, seq_length.
  split; [apply out_len_windows; auto|]. intros i Hi. rewrite nth_error_map, nth_error_seq by auto. reflexivity.
Qed.

Lemma frame_opt_ext v x k t :
  frame_opt (x ++ repeat v k) t = frame_opt x t \/ (frame_opt (x ++ repeat v k) t = Some v /\ frame_opt x t = None)
  \/ (frame_opt (x ++ repeat v k) t = None /\ frame_opt x t = None).
Proof.
  unfold frame_opt. destruct (t <? 0)%Z; auto. set (i := Z.to_nat t).
  destruct (Nat.lt_ge_cases i (length x)) as [L|L].
  - left. apply nth_error_app1. auto.
  - rewrite nth_error_app2 by auto. assert (nth_error x i = None) as -> by (apply nth_error_None; auto).
    destruct (Nat.lt_ge_cases (i - length x) k) as [L'|L'].
    + right. left. rewrite nth_error_repeat by auto. auto.
    + right. right. split; auto. apply nth_error_None. rewrite repeat_length. auto.
Qed.
Lemma frame_frame_opt v x t : Some (frame v x t) = frame_opt x t \/ (frame v x t = v /\ frame_opt x t = None).
Proof.
  unfold frame, frame_opt. destruct (t <? 0)%Z; auto. set (i := Z.to_nat t).
  destruct (Nat.lt_ge_cases i (length x)) as [L|L].
  - left. symmetry. apply nth_error_nth'. auto.
  - right. split; [apply nth_overflow; auto|apply nth_error_None; auto].
Qed.
Lemma Forall2_map2 {X Y Z'} (P : Y -> Z' -> Prop) (f : X -> Y) (g : X -> Z') l :
  (forall x, In x l -> P (f x) (g x)) -> Forall2 P (map f l) (map g l).
Proof. intros H. induction l; cbn; constructor; [apply H; left; auto|apply IHl; intros; apply H; right; auto]. Qed.

Theorem pool_max (W : list (option A) -> B) v zero c xs lens rows olens out :
  positive c -> consistent_same c -> masks c -> ignores v W -> padded xs lens rows ->
  pool v zero W Max c lens rows = Ok (olens, out) ->
  exists ys, padded ys olens out /\ (use_mask c = true -> padded_with zero ys olens out) /\ Forall2 (result_of_opt W c) xs ys.
Proof.
  intros Hp Hc Hm Hi Hpad E.
  eexists. rewrite <- (and_assoc (padded _ _ _)). split; [|apply results_opt; auto].
  eapply (pool_general _ _ _ Max) in E; eauto.
  - destruct E as [E1 E2]. split; [exact E1|auto].
  - destruct Hm as [Hm|Hv].
    + pose proof (mask_rows_padded c v _ _ _ Hpad Hm) as [_ H]. eapply Forall2_impl'; [|exact H]. clear H.
      intros x row (k & -> & _) i _. apply Hi. unfold pool_window. apply Forall2_map2. intros j _. unfold lp.
      set (t := position c (left_pad c) i j). destruct (_ && _).
      * rewrite frame_ext. destruct (frame_frame_opt v x t) as [->|[-> ->]]; auto.
      * destruct (frame_opt_ext v x k t) as [->|[[-> ->]|[-> ->]]]; auto.
    + assert (Hn : needs_consistent c = false) by (unfold needs_consistent; rewrite Hv; auto).
      assert (H : Forall2 (fun x row => exists junk, row = x ++ junk) xs (mask_rows c v lens rows)).
      { destruct (use_mask c) eqn:Em.
        - pose proof (mask_rows_padded c v _ _ _ Hpad Em) as [_ H]. eapply Forall2_impl'; [|exact H].
          intros x row (k & -> & _). eauto.
        - unfold mask_rows. rewrite Em. destruct Hpad as [_ H]. eapply Forall2_impl'; [|exact H]. intros x row [H' _]. exact H'. }
      eapply Forall2_impl'; [|exact H]. intros x row [junk ->] i Hi'. f_equal. unfold pool_window. rewrite Hn. cbn [andb].
      apply map_ext_in. intros j Hj. apply in_seq in Hj.
      apply (out_len_windows c _ Hp) in Hi'. unfold window_fits in Hi'. rewrite Hv in Hi'.
      unfold frame_opt, position, lp, left_pad. rewrite Hv. destruct (Z.ltb_spec (Z.of_nat (i * stride c + j * dilation c) - Z.of_nat 0) 0); auto.
      apply nth_error_app1. assert (j * dilation c <= (size c - 1) * dilation c) by nia. lia.
Qed.

Theorem pool_avg_valid (W : list (option A) -> B) v zero c xs lens rows olens out :
  positive c -> pad c = Valid -> padded xs lens rows ->
  pool v zero W Avg c lens rows = Ok (olens, out) ->
  exists ys, padded ys olens out /\ Forall2 (result_of_opt W c) xs ys.
Proof.
  intros Hp Hv Hpad E.
  eexists. split; [|apply results_opt; auto].
  eapply (pool_general _ _ _ Avg) in E; eauto; [destruct E as [E _]; exact E|congruence|].
  assert (Hn : needs_consistent c = false) by (unfold needs_consistent; rewrite Hv; auto).
  assert (H : Forall2 (fun x row => exists junk, row = x ++ junk) xs (mask_rows c v lens rows)).
  { destruct (use_mask c) eqn:Em.
    - pose proof (mask_rows_padded c v _ _ _ Hpad Em) as [_ H]. eapply Forall2_impl'; [|exact H].
      intros x row (k & -> & _). eauto.
    - unfold mask_rows. rewrite Em. destruct Hpad as [_ H]. eapply Forall2_impl'; [|exact H]. intros x row [H' _]. exact H'. }
  eapply Forall2_impl'; [|exact H]. intros x row [junk ->] i Hi'. f_equal. unfold pool_window. rewrite Hn. cbn [andb].
  apply map_ext_in. intros j Hj. apply in_seq in Hj.
  apply (out_len_windows c _ Hp) in Hi'. unfold window_fits in Hi'. rewrite Hv in Hi'.
  unfold frame_opt, position, lp, left_pad. rewrite Hv. destruct (Z.ltb_spec (Z.of_nat (i * stride c + j * dilation c) - Z.of_nat 0) 0); auto.
  apply nth_error_app1. assert (j * dilation c <= (size c - 1) * dilation c) by nia. lia.
Qed.

Theorem pool_avg_even (W : list (option A) -> B) v zero c xs lens rows olens out :
  positive c -> pad c = Same -> 1 < stride c -> consistent c = true -> size c mod 2 = 0 -> use_mask c = true ->
  padded xs lens rows ->
  pool v zero W Avg c lens rows = Ok (olens, out) ->
  exists ys, padded ys olens out /\ Forall2 (result_of (fun w => W (map Some w)) v c) xs ys.
Proof.
  intros Hp Hs Hst Hc He Hm Hpad E.
  eexists. split.
  - eapply (pool_general _ _ _ Avg) in E; eauto; [destruct E as [E _]; exact E|intros _ _; auto|].
    pose proof (mask_rows_padded c v _ _ _ Hpad Hm) as [_ H]. eapply Forall2_impl'; [|exact H]. clear H.
    intros x row (k & -> & _) i _. f_equal. unfold pool_window. unfold needs_consistent. rewrite Hs, Hc.
    destruct (Nat.eqb_spec (stride c) 1); [lia|]. cbn [negb andb].
    assert (Nat.even (size c) = true) as -> by (apply Nat.even_spec; exists (size c / 2); pose proof (Nat.div_mod (size c) 2 ltac:(lia)); lia).
    instantiate (1 := fun x i => map (fun j => Some (frame v x (position c (lp c) i j))) (seq 0 (size c))).
    cbv beta. apply map_ext. intros j. rewrite frame_ext. reflexivity.
  - clear - Hp. induction xs as [|x xs IH]; cbn [map]; constructor; auto. unfold result_of. rewrite map_length, seq_length.
    split; [apply out_len_windows; auto|]. intros i Hi. rewrite nth_error_map, nth_error_seq by auto. cbn [option_map plus].
    rewrite map_map. reflexivity.
Qed.

Theorem pool_same_even (W : list (option A) -> B) v zero m c xs lens rows :
  positive c -> pad c = Same -> stride c = 1 -> size c mod 2 = 0 -> padded xs lens rows -> xs <> [] ->
  is_ok (pool v zero W m c lens rows) = false.
Proof.
  intros Hp Ep E1 He Hpad Hne. destruct (pool v zero W m c lens rows) as [[ol o]|] eqn:E; [|reflexivity]. exfalso.
  pose proof Hp as (Hk & Hs & Hd).
  assert (Hr : Forall2 (fun (_ row : list A) => length row = list_max lens) xs (mask_rows c v lens rows)).
  { pose proof (padded_len _ _ _ Hpad) as Hl. destruct Hpad as [El _].
    pose proof (mask_rows_len c v (list_max lens) xs rows) as G. rewrite <- El in G. auto. }
  unfold pool in E. unfold needs_consistent in E. rewrite Ep, E1 in E. cbn [Nat.eqb negb andb bind] in E.
  destruct (backend_pool _ _ _ _ _ _) as [[ol' o']|] eqn:Eb; [|discriminate]. clear E.
  apply backend_pool_Ok in Eb. destruct Eb as (Eol & Hlen & H). cbn [pool_pads fst snd] in H. rewrite E1 in H.
  change (Z.of_nat 1) with 1%Z in H. rewrite Z.mod_1_r in H.
  replace ((Z.of_nat (size c) - 1 - 0) / 2)%Z with (Z.of_nat ((size c - 1) / 2)) in H by (rewrite Nat2Z.inj_div; f_equal; lia).
  set (p := (size c - 1) / 2) in *.
  assert (Eol' : ol' = lens).
  { rewrite Eol. unfold out_size. rewrite E1. cbn [Nat.eqb andb]. rewrite orb_true_r. apply map_id. }
  rewrite Eol' in Hlen.
  destruct Hr as [|x row xs R Hl Hr]; [easy|]. inversion H as [|? o0 ? ? Ht _]; subst o'. inversion Hlen; subst.
  assert (Hpos : length o0 <> 0).
  { clear - Ht. unfold torch_pool1d in Ht. destruct (_ || _); [discriminate|]. cbv zeta in Ht.
    destruct (_ <? 1)%Z eqn:G in Ht; [discriminate|]. apply Ok_inj in Ht. subst o0. rewrite map_length, seq_length.
    apply Z.ltb_ge in G. match goal with |- Z.to_nat ?w <> 0 => set (z := w) in *; clearbody z end. lia. }
  rewrite <- E1 in Ht at 1. apply torch_pool_ceil1 in Ht; auto. subst o0. unfold pool_row in *.
  rewrite map_length, seq_length in *. assert (p + p = (size c - 1) * dilation c) by lia.
  assert (2 * p <= size c - 2).
  { unfold p. pose proof (Nat.div_mod (size c) 2 ltac:(lia)). pose proof (Nat.mul_div_le (size c - 1) 2 ltac:(lia)). lia. }
  nia.
Qed.

Lemma torch_pool_floor_ok (W : list (option A) -> B) c p row :
  positive c -> 2 * p <= (size c - 1) * dilation c + 1 -> (size c - 1) * dilation c < p + length row + p ->
  torch_pool1d W (size c) (stride c) (dilation c) (Z.of_nat p) false row
  = Ok (pool_row W c p (ceildiv (p + length row + p - (size c - 1) * dilation c) (stride c)) row).
Proof.
  intros Hp H2 Hn. destruct (torch_pool1d W (size c) (stride c) (dilation c) (Z.of_nat p) false row) as [y|er] eqn:E.
  - f_equal. apply torch_pool_floor; auto.
  - exfalso. unfold torch_pool1d in E. set (e := (size c - 1) * dilation c) in *. destruct Hp as (Hk & Hs & Hd).
    assert (((Z.of_nat p <? 0) || ((Z.of_nat e + 1) / 2 <? Z.of_nat p))%Z = false) as Eb.
    { apply orb_false_iff. split; apply Z.ltb_ge; [lia|]. apply Z.div_le_lower_bound; lia. }
    rewrite Eb in E. cbn [andb] in E. destruct (Z.ltb_spec ((Z.of_nat (length row) + Z.of_nat p + Z.of_nat p - Z.of_nat e - 1 + 0) / Z.of_nat (stride c) + 1) 1) as [L|]; [|discriminate].
    assert (0 <= (Z.of_nat (length row) + Z.of_nat p + Z.of_nat p - Z.of_nat e - 1 + 0) / Z.of_nat (stride c))%Z by (apply Z.div_pos; lia).
    lia.
Qed.

Theorem pool_no_error (W : list (option A) -> B) v zero m c xs lens rows n :
  positive c -> pad c <> Same -> 2 * left_pad c <= (size c - 1) * dilation c + 1 -> (m = Avg -> dilation c = 1) ->
  padded xs lens rows -> windows c (list_max lens) n -> 0 < n ->
  is_ok (pool v zero W m c lens rows) = true.
Proof.
  intros Hp Hns Hpad2 Hm Hpad Hw Hn. pose proof Hp as (Hk & Hs & Hd).
  assert (Hr : Forall2 (fun (_ row : list A) => length row = list_max lens) xs (mask_rows c v lens rows)).
  { pose proof (padded_len _ _ _ Hpad) as Hl. destruct Hpad as [El _].
    pose proof (mask_rows_len c v (list_max lens) xs rows) as G. rewrite <- El in G. auto. }
  assert (Ex : lens = map (@length A) xs) by apply Hpad.
  unfold pool. set (R := mask_rows c v lens rows) in *. clearbody R.
  assert (needs_consistent c = false) as -> by (unfold needs_consistent; destruct (pad c); auto; easy).
  cbn [bind]. rewrite bind_is_ok by (intros [a b]; destruct m; reflexivity).
  set (p := left_pad c) in *.
  assert (Epads : pool_pads c (pad c) (dim_value lens) = (Z.of_nat p, false)) by (unfold p, left_pad; destruct (pad c); auto; easy).
  assert (Erp : rp c = lp c) by (unfold rp, lp, left_pad; destruct (pad c); auto; easy).
  assert (Eo : map (out_size c (pad c)) lens = map (out_len c) lens).
  { apply map_ext. intros k. rewrite out_size_calc by auto. unfold out_len. rewrite Erp. unfold lp, left_pad.
    destruct (pad c); try easy; cbn [calc_out_dim]; f_equal; lia. }
  assert (En : n = out_len c (list_max lens)) by (eapply windows_unique; [exact Hw|apply out_len_windows; auto]).
  assert (Hfit : (size c - 1) * dilation c < p + list_max lens + p).
  { rewrite En in Hn. unfold out_len in Hn. rewrite Erp in Hn. apply ceildiv_lt in Hn; auto. unfold lp in Hn. fold p in Hn. lia. }
  unfold backend_pool. rewrite Epads.
  assert (match m with Max => Ok tt | Avg => assert_ (dilation c =? 1) end = Ok tt) as ->.
  { destruct m; auto. rewrite Hm by auto. reflexivity. }
  cbn [bind].
  assert (EM : mapM (torch_pool1d W (size c) (stride c) (dilation c) (Z.of_nat p) false) R
     = Ok (map (pool_row W c p (out_len c (list_max lens))) R)).
  { clear Ex Hpad. induction Hr as [|x row xs R Hl Hr IH]; [reflexivity|]. cbn [mapM map]. rewrite torch_pool_floor_ok by (auto; lia).
    cbn [bind]. rewrite IH. cbn [bind]. unfold out_len. rewrite Erp, Hl. reflexivity. }
  rewrite EM. cbn [bind]. rewrite Eo. 
  assert (Ef : forallb (fun row => length row =? dim_value (map (out_len c) lens)) (map (pool_row W c p (out_len c (list_max lens))) R) = true).
  { apply forallb_forall. intros o Ho. apply in_map_iff in Ho. destruct Ho as (row & <- & Hin). apply Nat.eqb_eq.
    unfold pool_row. rewrite map_length, seq_length. change dim_value with list_max. symmetry. apply out_len_max; auto.
    intros E0. rewrite E0 in Ex. destruct xs; [|discriminate]. inversion Hr; subst. destruct Hin. }
  rewrite Ef. reflexivity.
Qed.
End Frames.
