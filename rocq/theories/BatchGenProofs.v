From Coq Require Import String.
From Verif Require Import Base ListLemmas PyDict NumbersDictModel NumbersDictSpec NumbersDictProofs BatchGenModel BatchGenSpec.
Local Open Scope nat_scope. Local Open Scope list_scope. Local Open Scope Z_scope.
Local Notation length := List.length.

(** facts about the operations of NumbersDict *)
Lemma op_facts (f : Z -> Z -> Z) zero a b : let r := strip (bin_op (lift2 f) (Some zero) (NumND a) (NumND b)) in
  (forall k, at_key r k = pointwise f zero (at_key a k) (at_key b k)) /\ (forall k, has_key r k <-> has_key a k \/ has_key b k) /\
  nd_value r = pointwise f zero (nd_value a) (nd_value b) /\ dict_ok (nd_dict r).
Proof.
  cbv zeta. destruct (bin_op_pointwise f zero (NumND a) (NumND b)) as [H1 H2]. split; [exact H1|]. split; [exact H2|]. split.
  - unfold bin_op, op_convert, strip, bin_op_nd. cbn [nd_value]. destruct (nd_value a), (nd_value b); reflexivity.
  - unfold bin_op, op_convert. apply strip_bin_op_ok. apply total_lift2.
Qed.
Lemma op_num_facts (f : Z -> Z -> Z) zero a v : let r := strip (bin_op (lift2 f) (Some zero) (NumND a) (Num v)) in
  (forall k, at_key r k = option_map (fun x => f x v) (at_key a k)) /\ (forall k, has_key r k <-> has_key a k) /\
  nd_value r = option_map (fun x => f x v) (nd_value a) /\ dict_ok (nd_dict r).
Proof.
  cbv zeta. destruct (bin_op_pointwise f zero (NumND a) (Num v)) as [H1 H2]. split; [|split; [|split]].
  - intros k. rewrite H1. unfold operand_at. destruct (at_key a k); reflexivity.
  - intros k. rewrite H2. cbn. tauto.
  - unfold bin_op, op_convert, strip, bin_op_nd, constant_like. cbn [nd_value]. destruct (nd_value a); reflexivity.
  - unfold bin_op, op_convert. apply strip_bin_op_ok. apply total_lift2.
Qed.
Lemma num_op_facts (f : Z -> Z -> Z) zero a v : let r := strip (bin_op (lift2 f) (Some zero) (Num v) (NumND a)) in
  (forall k, at_key r k = option_map (fun x => f v x) (at_key a k)) /\ (forall k, has_key r k <-> has_key a k) /\
  nd_value r = option_map (fun x => f v x) (nd_value a) /\ dict_ok (nd_dict r).
Proof.
  cbv zeta. destruct (bin_op_pointwise f zero (Num v) (NumND a)) as [H1 H2]. split; [|split; [|split]].
  - intros k. rewrite H1. unfold operand_at. destruct (at_key a k); reflexivity.
  - intros k. rewrite H2. cbn. tauto.
  - unfold bin_op, op_convert, strip, bin_op_nd, constant_like. cbn [nd_value]. destruct (nd_value a); reflexivity.
  - unfold bin_op, op_convert. apply strip_bin_op_ok. apply total_lift2.
Qed.
Lemma max_facts a b : exists r, nd_max [NumND a; NumND b] = Ok r /\
  (forall k, at_key r k = opt_max (at_key a k) (at_key b k)) /\ (forall k, has_key r k <-> has_key a k \/ has_key b k) /\
  nd_value r = opt_max (nd_value a) (nd_value b) /\ dict_ok (nd_dict r).
Proof.
  eexists. split; [reflexivity|]. unfold bin_op, op_convert. split; [|split; [|split]].
  - intros k. rewrite !at_key_get, strip_bin_op_get, bin_opt_max by apply total_opt_max. reflexivity.
  - intros k. rewrite !has_key_In, strip_bin_op_keys by apply total_opt_max. apply keys_union_In.
  - unfold strip, bin_op_nd. cbn [nd_value]. destruct (nd_value a), (nd_value b); reflexivity.
  - apply strip_bin_op_ok, total_opt_max.
Qed.
Lemma at_key_no n k : nd_value n = None -> ~ has_key n k -> @at_key Z n k = None.
Proof. intros Hv Hk. rewrite at_key_get, nd_get_not_key; [exact Hv|]. now rewrite <- has_key_In. Qed.
Lemma at_key_has n k : has_key n k -> exists v, @at_key Z n k = Some v.
Proof. intros H. rewrite at_key_get. apply has_key_In, nd_get_key in H. destruct (nd_get n k); [eauto|congruence]. Qed.

Section P.
Variables (lim : limits) (K : list string).
Definition keyed1 (c : chunk) : Prop := nd_value (k_start c) = None /\ nd_value (k_end c) = None /\ forall k, (has_key (k_start c) k <-> In k K) /\ (has_key (k_end c) k <-> In k K).
Hypothesis Kne : K <> [].
Hypothesis ctx_l : nd_value (l_ctx_left lim) = None.
Hypothesis ctx_r : nd_value (l_ctx_right lim) = None.
Hypothesis ctx_k : forall k, has_key (l_ctx_left lim) k \/ has_key (l_ctx_right lim) k -> In k K.
Hypothesis bs_pos : forall w, nd_value (l_batch_size lim) = Some w -> 0 < w.
Hypothesis pad_pos : forall w, nd_value (l_max_pad lim) = Some w -> 0 <= w.

Lemma start_facts c : keyed1 c -> (forall k, In k K -> at_key (start_of lim c) k = Some (first_frame lim c k)) /\ (forall k, has_key (start_of lim c) k <-> In k K) /\ nd_value (start_of lim c) = None.
Proof.
  intros (V1&V2&Hk). unfold start_of, nd_sub. destruct (op_facts Z.sub 0 (k_start c) (l_ctx_left lim)) as (A&B&C&D). split; [|split].
  - intros k Hin. rewrite A. unfold first_frame, number_at. destruct (at_key_has (k_start c) k) as (v&->); [now apply Hk|]. destruct (at_key (l_ctx_left lim) k); cbn; f_equal; lia.
  - intros k. rewrite B. specialize (Hk k). specialize (ctx_k k). tauto.
  - rewrite C, V1, ctx_l. reflexivity.
Qed.
Lemma end_facts c : keyed1 c -> (forall k, In k K -> at_key (end_of lim c) k = Some (end_frame lim c k)) /\ (forall k, has_key (end_of lim c) k <-> In k K) /\ nd_value (end_of lim c) = None.
Proof.
  intros (V1&V2&Hk). unfold end_of, nd_add. destruct (op_facts Z.add 0 (k_end c) (l_ctx_right lim)) as (A&B&C&D). split; [|split].
  - intros k Hin. rewrite A. unfold end_frame, number_at. destruct (at_key_has (k_end c) k) as (v&->); [now apply Hk|]. destruct (at_key (l_ctx_right lim) k); cbn; f_equal; lia.
  - intros k. rewrite B. specialize (Hk k). specialize (ctx_k k). tauto.
  - rewrite C, V2, ctx_r. reflexivity.
Qed.
Lemma length_facts c : keyed1 c -> (forall k, In k K -> at_key (length_of lim c) k = Some (frames lim c k)) /\ (forall k, has_key (length_of lim c) k <-> In k K) /\ nd_value (length_of lim c) = None /\ dict_ok (nd_dict (length_of lim c)).
Proof.
  intros Hc. destruct (start_facts c Hc) as (A1&A2&A3). destruct (end_facts c Hc) as (B1&B2&B3). unfold length_of, nd_sub. destruct (op_facts Z.sub 0 (end_of lim c) (start_of lim c)) as (A&B&C&D). split; [|split; [|split]].
  - intros k Hin. rewrite A, A1, B1 by exact Hin. reflexivity.
  - intros k. rewrite B, A2, B2. tauto.
  - rewrite C, A3, B3. reflexivity.
  - exact D.
Qed.
Lemma frames_out c k : keyed1 c -> ~ In k K -> first_frame lim c k = 0 /\ end_frame lim c k = 0.
Proof.
  intros (V1&V2&Hk) Hn. unfold first_frame, end_frame, number_at. rewrite !at_key_no; auto; try (now rewrite (proj1 (Hk k))); try (now rewrite (proj2 (Hk k))); intros H; apply Hn, (ctx_k k); tauto.
Qed.
Lemma any_compare_keys cmp n other (val : string -> Z) : dict_ok (nd_dict n) -> (forall k, has_key n k <-> In k K) -> (forall k, In k K -> at_key n k = Some (val k)) ->
  (forall v w, nd_value n = Some v -> nd_value other = Some w -> cmp v w = false) ->
  any_compare cmp n other = false <-> forall k, In k K -> forall w, at_key other k = Some w -> cmp (val k) w = false.
Proof.
  intros H1 H2 H3 H4. pose proof (any_compare_spec cmp n other H1) as H. destruct (any_compare cmp n other); split; intros A.
  - discriminate.
  - exfalso. destruct (proj1 H eq_refl) as [(k&v&w&B1&B2&B3&B4)|(v&w&B1&B2&B3)].
    + apply H2 in B1 as B5. rewrite H3 in B2 by exact B5. injection B2 as <-. rewrite (A k B5 w B3) in B4. discriminate.
    + rewrite (H4 v w B1 B2) in B3. discriminate.
  - intros k Hk w Hw. destruct (cmp (val k) w) eqn:E; [|reflexivity]. enough (false = true) by discriminate. apply H. left. exists k, (val k), w. rewrite H2, H3; auto.
  - reflexivity.
Qed.
Lemma skip_wanted c : keyed1 c -> wanted lim K c = k_sample c && negb (skip_chunk lim c).
Proof.
  intros Hc. destruct (length_facts c Hc) as (A&B&C&D). unfold wanted, skip_chunk.
  pose proof (any_compare_keys Z.gtb (length_of lim c) (l_max_len lim) (frames lim c) D B A) as H1. pose proof (any_compare_keys Z.ltb (length_of lim c) (l_min_len lim) (frames lim c) D B A) as H2.
  rewrite C in H1, H2. specialize (H1 ltac:(discriminate)). specialize (H2 ltac:(discriminate)). rewrite !negb_orb, <- andb_assoc. f_equal. rewrite andb_comm. f_equal.
  apply eq_true_iff_eq. rewrite forallb_forall, andb_true_iff, !negb_true_iff, H1, H2. split.
  - intros H. split; intros k Hk w Hw; specialize (H k Hk); apply andb_true_iff in H as [X Y]; rewrite Hw in *; unfold at_most, at_least in *; [apply Z.leb_le in X|apply Z.leb_le in Y]; [rewrite Z.gtb_ltb|]; apply Z.ltb_ge; lia.
  - intros [X Y] k Hk. apply andb_true_iff. unfold at_most, at_least. specialize (X k Hk). specialize (Y k Hk). split.
    + destruct (at_key (l_max_len lim) k) as [w|]; [|reflexivity]. specialize (X w eq_refl). rewrite Z.gtb_ltb in X. apply Z.ltb_ge in X. now apply Z.leb_le.
    + destruct (at_key (l_min_len lim) k) as [w|]; [|reflexivity]. specialize (Y w eq_refl). apply Z.ltb_ge in Y. now apply Z.leb_le.
Qed.

(** the state of a batch *)
Record binv (b : batch) (g : list chunk) : Prop := {
  bi_keyed : Forall keyed1 g;
  bi_slices : b_slices b = length g;
  bi_keys : forall k, has_key (b_max b) k <-> g <> [] /\ In k K;
  bi_max : forall k, at_key (b_max b) k = Some (longest lim g k);
  bi_value : nd_value (b_max b) = Some 0;
  bi_seqs : Forall2 (fun p c => p_idx p = k_idx c /\ p_start p = start_of lim c /\ p_end p = nd_add (NumND (start_of lim c)) (NumND (length_of lim c)) /\ p_offset p = nd_make (OpNum 0)) (b_seqs b) g;
  bi_slice : forall i p, nth_error (b_seqs b) i = Some p -> p_slice p = i }.
Lemma binv_new : binv new_batch [].
Proof.
  split; cbn [new_batch b_max b_slices b_seqs].
  - constructor.
  - reflexivity.
  - intros k. split; [intros (v&[])|intros [H _]; congruence].
  - reflexivity.
  - reflexivity.
  - constructor.
  - intros [|i] p; discriminate.
Qed.

Lemma longest_snoc g c k : longest lim (g ++ [c]) k = Z.max (longest lim g k) (frames lim c k).
Proof. unfold longest. rewrite map_app. cbn [map]. induction (map (fun c0 => frames lim c0 k) g) as [|x l IH]; cbn [app fold_right]; [lia|]. rewrite IH. lia. Qed.
Lemma longest_nonneg g k : 0 <= longest lim g k.
Proof. unfold longest. induction g; cbn [map fold_right]; lia. Qed.
Lemma longest_out g k : Forall keyed1 g -> ~ In k K -> longest lim g k = 0.
Proof. intros H Hn. unfold longest. induction H as [|c g Hc H IH]; cbn [map fold_right]; [reflexivity|]. destruct (frames_out c k Hc Hn) as [E1 E2]. assert (E : frames lim c k = 0) by (unfold frames; lia). rewrite E, IH. reflexivity. Qed.
Lemma sum_snoc l x : sum (l ++ [x]) = sum l + x.
Proof. unfold sum. induction l; cbn [app fold_right]; lia. Qed.

Lemma try_facts b g c : binv b g -> keyed1 c -> exists dt, try_sequence_as_slice b (length_of lim c) = Ok (dt, S (length g)) /\ (forall k, at_key dt k = Some (longest lim (g ++ [c]) k)) /\ (forall k, has_key dt k <-> In k K) /\ nd_value dt = Some 0 /\ dict_ok (nd_dict dt).
Proof.
  intros [B1 B2 B3 B4 B5 B6 B7] Hc. unfold try_sequence_as_slice. destruct (max_facts (b_max b) (length_of lim c)) as (r&->&M1&M2&M3&M4). cbn [bind]. rewrite B2. exists r. split; [reflexivity|]. destruct (length_facts c Hc) as (A&B&C&D).
  split; [|split; [|split; [|exact M4]]].
  - intros k. rewrite M1, B4, longest_snoc. destruct (in_dec string_dec k K) as [Hi|Hn].
    + rewrite A by exact Hi. reflexivity.
    + rewrite at_key_no; [|exact C|now rewrite B]. cbn. f_equal. destruct (frames_out c k Hc Hn) as [E1 E2]. unfold frames. rewrite E1, E2. pose proof (longest_nonneg g k). lia.
  - intros k. rewrite M2, B3, B. tauto.
  - rewrite M3, B5, C. reflexivity.
Qed.
Lemma frame_length_facts p c : keyed1 c -> p_start p = start_of lim c -> p_end p = nd_add (NumND (start_of lim c)) (NumND (length_of lim c)) ->
  (forall k, In k K -> at_key (frame_length p) k = Some (frames lim c k)) /\ (forall k, has_key (frame_length p) k <-> In k K) /\ nd_value (frame_length p) = None.
Proof.
  intros Hc Hs He. unfold frame_length. rewrite Hs, He. destruct (start_facts c Hc) as (A1&A2&A3). destruct (length_facts c Hc) as (B1&B2&B3&B4).
  destruct (op_facts Z.add 0 (start_of lim c) (length_of lim c)) as (P1&P2&P3&P4). fold (nd_add (NumND (start_of lim c)) (NumND (length_of lim c))) in *. set (e := nd_add _ _) in *.
  unfold nd_sub. destruct (op_facts Z.sub 0 e (start_of lim c)) as (Q1&Q2&Q3&Q4). split; [|split].
  - intros k Hk. rewrite Q1, P1, A1, B1 by exact Hk. cbn. f_equal. lia.
  - intros k. rewrite Q2, P2, A2, B2. tauto.
  - rewrite Q3, P3, A3, B3. reflexivity.
Qed.
Lemma total_facts b g : binv b g -> g <> [] -> exists t, total_num_frames b = NumND t /\ (forall k, In k K -> at_key t k = Some (sum (map (fun c => frames lim c k) g))) /\ (forall k, has_key t k <-> In k K) /\ nd_value t = None.
Proof.
  intros [B1 B2 B3 B4 B5 B6 B7] Hne. unfold total_num_frames. clear B2 B3 B4 B5 B7. revert B1 B6 Hne. generalize (b_seqs b). induction g as [|c g IH] using rev_ind; [congruence|]. intros ps Hk HF _. apply Forall2_app_inv_r in HF. destruct HF as (ps1&ps2&H1&H2&->). inversion H2 as [|p c' ps2' cs' Hp Hnil]; subst. inversion Hnil; subst. clear Hnil H2.
  rewrite fold_left_app. cbn [fold_left]. apply Forall_app in Hk. destruct Hk as [Hk1 Hk2]. inversion Hk2 as [|? ? Hc _]; subst. destruct Hp as (_&Hs&He&_). destruct (frame_length_facts p c Hc Hs He) as (F1&F2&F3).
  assert (Es : forall k, sum (map (fun c => frames lim c k) (g ++ [c])) = sum (map (fun c => frames lim c k) g) + frames lim c k) by (intros k; rewrite map_app; apply sum_snoc). destruct g as [|c0 g0].
  - inversion H1; subst. cbn [fold_left]. destruct (num_op_facts Z.add 0 (frame_length p) 0) as (Q1&Q2&Q3&Q4). unfold nd_add. eexists. split; [reflexivity|]. split; [|split].
    + intros k Hin. rewrite Q1, F1, Es by exact Hin. cbn. f_equal.
    + intros k. rewrite Q2. apply F2.
    + rewrite Q3, F3. reflexivity.
  - destruct (IH ps1 Hk1 H1) as (t&->&T1&T2&T3); [discriminate|]. destruct (op_facts Z.add 0 t (frame_length p)) as (Q1&Q2&Q3&Q4). unfold nd_add. eexists. split; [reflexivity|]. split; [|split].
    + intros k Hin. rewrite Q1, T1, F1, Es by exact Hin. reflexivity.
    + intros k. rewrite Q2, T2, F2. tauto.
    + rewrite Q3, T3, F3. reflexivity.
Qed.

Lemma close_facts b g c : binv b g -> keyed1 c -> exists r, must_close lim b (length_of lim c) = Ok r /\ (g = [] -> r = false) /\ (g <> [] -> (r = false <-> fits lim K (g ++ [c]))).
Proof.
  intros Hb Hc. destruct (try_facts b g c Hb Hc) as (dt&Ht&T1&T2&T3&T4). unfold must_close. rewrite Ht. cbn [bind]. rewrite (bi_slices _ _ Hb). destruct g as [|c0 g0] eqn:Eg; [cbn; eexists; split; [reflexivity|]; split; congruence|]. rewrite <- Eg in *. 
  assert (Hlen : (1 <=? length g)%nat = true) by (subst g; reflexivity). rewrite Hlen. assert (Hne : g <> []) by (subst g; discriminate). clear Eg c0 g0.
  destruct (op_num_facts Z.mul 1 dt (Z.of_nat (S (length g)))) as (M1&M2&M3&M4). fold (nd_mul (NumND dt) (Num (Z.of_nat (S (length g))))) in *. set (f := nd_mul _ _) in *.
  assert (Hsz : length (g ++ [c]) = S (length g)) by (rewrite app_length; cbn; lia).
  assert (F1 : forall k, In k K -> at_key f k = Some (longest lim (g ++ [c]) k * Z.of_nat (length (g ++ [c])))) by (intros k _; rewrite M1, T1, Hsz; reflexivity).
  assert (F2 : forall k, has_key f k <-> In k K) by (intros k; now rewrite M2).
  assert (F3 : nd_value f = Some 0) by (rewrite M3, T3; cbn; f_equal; lia).
  destruct (total_facts b g Hb Hne) as (t&->&U1&U2&U3). destruct (length_facts c Hc) as (A&B&C&D).
  destruct (op_facts Z.sub 0 f t) as (P1&P2&P3&P4). fold (nd_sub (NumND f) (NumND t)) in *. set (d := nd_sub (NumND f) (NumND t)) in *.
  destruct (op_facts Z.sub 0 d (length_of lim c)) as (Q1&Q2&Q3&Q4). fold (nd_sub (NumND d) (NumND (length_of lim c))) in *. set (r := nd_sub (NumND d) (NumND (length_of lim c))) in *.
  assert (R1 : forall k, In k K -> at_key r k = Some (longest lim (g ++ [c]) k * Z.of_nat (length (g ++ [c])) - sum (map (fun c => frames lim c k) (g ++ [c])))) by (intros k Hk; rewrite Q1, P1, F1, U1, A by exact Hk; cbn [pointwise]; f_equal; rewrite map_app; cbn [map]; rewrite sum_snoc; lia).
  assert (R2 : forall k, has_key r k <-> In k K) by (intros k; rewrite Q2, P2, F2, U2, B; tauto).
  assert (R3 : nd_value r = Some 0) by (rewrite Q3, P3, F3, U3, C; reflexivity).
  pose proof (any_compare_keys Z.gtb f (l_batch_size lim) _ M4 F2 F1) as X1. pose proof (any_compare_keys Z.gtb r (l_max_pad lim) _ Q4 R2 R1) as X2.
  assert (Y1 : forall v w, nd_value f = Some v -> nd_value (l_batch_size lim) = Some w -> (v >? w) = false) by (intros v w; rewrite F3; intros [= <-] Hw; apply bs_pos in Hw; rewrite Z.gtb_ltb; apply Z.ltb_ge; lia).
  assert (Y2 : forall v w, nd_value r = Some v -> nd_value (l_max_pad lim) = Some w -> (v >? w) = false) by (intros v w; rewrite R3; intros [= <-] Hw; apply pad_pos in Hw; rewrite Z.gtb_ltb; apply Z.ltb_ge; lia).
  specialize (X1 Y1). specialize (X2 Y2).
  assert (X0 : over (S (length g)) (l_max_seqs lim) = false <-> forall m, l_max_seqs lim = Some m -> (length (g ++ [c]) <= m)%nat).
  { rewrite Hsz. unfold over. destruct (l_max_seqs lim) as [m|]; [|split; [discriminate|reflexivity]]. rewrite Nat.ltb_ge. split; [intros H m' [= <-]; exact H|auto]. }
  assert (G : forall x w, (x >? w) = false <-> x <= w) by (intros x w; rewrite Z.gtb_ltb; apply Z.ltb_ge). setoid_rewrite G in X1. setoid_rewrite G in X2. unfold fits.
  destruct (any_compare Z.gtb f (l_batch_size lim)); [|destruct (over (S (length g)) (l_max_seqs lim)); [|destruct (any_compare Z.gtb r (l_max_pad lim))]]; eexists; (split; [reflexivity|]); (split; [congruence|]); intros _; split; try discriminate; try reflexivity; intuition congruence.
Qed.
Lemma has_key_values (n : ndict Z) k : has_key n k -> has_values n = true.
Proof. intros (v&Hin). unfold has_values. enough (Hi : In v (nd_values n)) by (destruct (nd_values n); [destruct Hi|reflexivity]). apply values_In. left. now exists k. Qed.

Lemma add_facts b g c : binv b g -> keyed1 c -> exists b', add_sequence_as_slice b (k_idx c) (start_of lim c) (length_of lim c) = Ok b' /\ binv b' (g ++ [c]).
Proof.
  intros Hb Hc. destruct (try_facts b g c Hb Hc) as (dt&Ht&T1&T2&T3&T4). unfold add_sequence_as_slice. rewrite Ht. cbn [bind].
  destruct (start_facts c Hc) as (A1&A2&A3). destruct (length_facts c Hc) as (B1&B2&B3&B4).
  destruct (op_facts Z.add 0 (start_of lim c) (length_of lim c)) as (P1&P2&P3&P4). fold (nd_add (NumND (start_of lim c)) (NumND (length_of lim c))) in *. set (e := nd_add _ _) in *.
  destruct K as [|k0 K'] eqn:EK; [congruence|]. rewrite (has_key_values (start_of lim c) k0) by (apply A2; now left). rewrite (has_key_values e k0) by (apply P2; left; apply A2; now left). cbn [assert_ bind]. eexists. split; [reflexivity|]. rewrite <- EK in *.
  destruct Hb as [C1 C2 C3 C4 C5 C6 C7]. assert (Hsz : length (g ++ [c]) = S (length g)) by (rewrite app_length; cbn; lia). pose proof (Forall2_len _ _ _ C6) as Hl. split; cbn [b_slices b_max b_seqs].
  - apply Forall_app. split; [exact C1|]. constructor; [exact Hc|constructor].
  - now rewrite Hsz.
  - intros k. rewrite T2. split; [intros H; split; [destruct g; discriminate|exact H]|tauto].
  - exact T1.
  - exact T3.
  - apply Forall2_app; [exact C6|]. constructor; [|constructor]. cbn. auto.
  - intros i p Hi. destruct (Nat.lt_ge_cases i (length (b_seqs b))) as [Hlt|Hge].
    + rewrite nth_error_app1 in Hi by exact Hlt. now apply C7.
    + rewrite nth_error_app2 in Hi by exact Hge. destruct (i - length (b_seqs b))%nat eqn:E; [|destruct n; discriminate]. injection Hi as <-. cbn [p_slice]. lia.
Qed.
Lemma binv_holds b g : binv b g -> holds lim b g.
Proof.
  intros [C1 C2 C3 C4 C5 C6 C7]. split; [exact C2|]. split; [now apply Forall2_len in C6|]. split.
  - intros i p c Hp Hc. pose proof (C7 _ _ Hp) as Hsl. destruct (Forall2_nth _ _ _ _ _ _ C6 Hp Hc) as (Hi&Hs&He&Ho). split; [exact Hi|]. split; [exact Hsl|]. intros k. rewrite Ho.
    assert (Hk : keyed1 c) by (apply nth_error_In in Hc; rewrite Forall_forall in C1; now apply C1). destruct (start_facts c Hk) as (A1&A2&A3). destruct (length_facts c Hk) as (B1&B2&B3&B4).
    destruct (op_facts Z.add 0 (start_of lim c) (length_of lim c)) as (P1&P2&P3&P4). fold (nd_add (NumND (start_of lim c)) (NumND (length_of lim c))) in *. rewrite Hs, He. unfold number_at. rewrite P1. split; [|split; [|reflexivity]].
    + destruct (in_dec string_dec k K) as [Hin|Hn]; [now rewrite A1|]. rewrite at_key_no; [symmetry; now apply frames_out|exact A3|now rewrite A2].
    + destruct (in_dec string_dec k K) as [Hin|Hn]; [rewrite A1, B1 by exact Hin; cbn; unfold frames; lia|]. rewrite !at_key_no; [cbn; symmetry; now apply frames_out|exact B3|now rewrite B2|exact A3|now rewrite A2].
  - intros k. unfold number_at. now rewrite C4.
Qed.
Lemma final_facts b g : binv b g -> exists r, final b = Ok r /\ ((r = [b] /\ g <> []) \/ (r = [] /\ forall c k, In c g -> frames lim c k <= 0)).
Proof.
  intros Hb. pose proof Hb as [C1 C2 C3 C4 C5 C6 C7]. unfold final, all_slices_num_frames. destruct (op_num_facts Z.mul 1 (b_max b) (Z.of_nat (b_slices b))) as (M1&M2&M3&M4). fold (nd_mul (NumND (b_max b)) (Num (Z.of_nat (b_slices b)))) in *. set (f := nd_mul _ _) in *.
  unfold max_value. destruct (nd_values f) as [|v vs] eqn:E.
  { exfalso. rewrite C5 in M3. cbn in M3. assert (Hi : In (0 * Z.of_nat (b_slices b)) (nd_values f)) by (apply values_In; right; exact M3). rewrite E in Hi. destruct Hi. }
  cbn [bind]. destruct (fold_left_max vs v) as [F1 F2]. rewrite <- E in F1, F2. destruct (Z.ltb_spec 0 (fold_left Z.max vs v)) as [Hp|Hn]; eexists; (split; [reflexivity|]).
  - left. split; [reflexivity|]. intros ->. apply values_In in F2. destruct F2 as [(k&Hin)|Hv].
    + assert (Hk : has_key f k) by (eexists; exact Hin). apply M2, C3 in Hk. tauto.
    + rewrite M3, C5 in Hv. cbn in Hv. injection Hv as Hv. lia.
  - right. split; [reflexivity|]. intros c k Hin. destruct (in_dec string_dec k K) as [Hk|Hk].
    2:{ rewrite Forall_forall in C1. destruct (frames_out c k (C1 c Hin) Hk) as [E1 E2]. unfold frames. rewrite E1, E2. lia. }
    assert (Hne : g <> []) by (intros ->; destruct Hin). assert (Hf : has_key f k) by (apply M2, C3; auto). destruct Hf as (x&Hx). assert (Hxv : In x (nd_values f)) by (apply values_In; left; now exists k). specialize (F1 x Hxv).
    assert (Hax : at_key f k = Some x) by (rewrite at_key_get; unfold nd_get; now rewrite (In_dget _ _ _ M4 Hx)). rewrite M1, C4 in Hax. cbn in Hax. injection Hax as <-. rewrite C2 in F1.
    assert (Hlen : 1 <= Z.of_nat (length g)) by (destruct g; [congruence|cbn; lia]).
    assert (Hge : frames lim c k <= longest lim g k). { clear - Hin. unfold longest. induction g as [|a g IH]; cbn [map fold_right]; [destruct Hin|]. destruct Hin as [-> | Hin]; [lia|]. specialize (IH Hin). lia. }
    pose proof (longest_nonneg g k). nia.
Qed.

(** the whole loop *)
Definition chain (gs : list (list chunk)) : Prop := forall l g1 g2 r, gs = l ++ g1 :: g2 :: r -> exists c g2', g2 = c :: g2' /\ ~ fits lim K (g1 ++ [c]).
Lemma chain_cons g gs : chain gs -> (forall g2 r, gs = g2 :: r -> exists c g2', g2 = c :: g2' /\ ~ fits lim K (g ++ [c])) -> chain (g :: gs).
Proof.
  intros H H0 [|x l] g1 g2 r He; cbn [app] in He.
  - injection He as <- ->. now apply (H0 g2 r).
  - injection He as <- ->. now apply (H l g1 g2 r).
Qed.
Lemma loop_facts cs : l_max_total lim = None -> Forall keyed1 cs -> forall b g total last, binv b g -> (length g <= 1)%nat \/ fits lim K g ->
  exists bs groups rest, gen_recurrent lim cs b total last = Ok bs /\ Forall2 binv bs groups /\ g ++ filter (wanted lim K) cs = concat groups ++ rest /\
    (forall c k, In c rest -> frames lim c k <= 0) /\ Forall (fun g => g <> [] /\ (length g = 1%nat \/ fits lim K g)) groups /\
    chain (groups ++ match rest with [] => [] | _ => [rest] end) /\
    (* the first group starts with g *) (g <> [] -> exists x r, groups ++ match rest with [] => [] | _ => [rest] end = (g ++ x) :: r).
Proof.
  intros Hmt Hk. induction cs as [|c cs IH]; intros b g total last Hb Hg.
  - cbn [gen_recurrent filter]. destruct (final_facts b g Hb) as (r&->&[[-> Hne]|[-> Hz]]).
    + exists [b], [g], []. split; [reflexivity|]. split; [constructor; [exact Hb|constructor]|]. split; [cbn; now rewrite !app_nil_r|]. split; [intros ? ? []|]. split; [constructor; [|constructor]; split; [exact Hne|destruct Hg as [Hl|Hf]; [left; destruct g as [|? [|]]; [congruence|reflexivity|cbn in Hl; lia]|now right]]|].
      split; [|intros _; exists [], []; now rewrite !app_nil_r]. intros l g1 g2 r He. cbn in He. destruct l as [|? [|]]; discriminate.
    + exists [], [], g. split; [reflexivity|]. split; [constructor|]. split; [cbn; now rewrite app_nil_r|]. split; [exact Hz|]. split; [constructor|]. split; [destruct g; intros l g1 g2 r He; cbn in He; destruct l as [|? [|]]; discriminate|]. intros Hne. destruct g as [|c0 g0]; [congruence|]. exists [], []. cbn. now rewrite app_nil_r.
  - inversion Hk as [|? ? Hc Hk']; subst. specialize (IH Hk'). cbn [gen_recurrent filter]. rewrite (skip_wanted c Hc). destruct (k_sample c); cbn [negb andb]; [|now apply IH]. rewrite Hmt. cbn [over]. destruct (skip_chunk lim c); cbn [negb]; [now apply IH|].
    destruct (close_facts b g c Hb Hc) as (cl&->&Hc0&Hc1). cbn [bind]. destruct cl.
    + assert (Hne : g <> []) by (intros H; specialize (Hc0 H); discriminate). destruct (add_facts new_batch [] c binv_new Hc) as (b'&->&Hb'). cbn [bind app] in *. match goal with |- context [gen_recurrent lim cs b' ?t _] => set (tot := t) end. edestruct (IH b' [c] tot (Some (k_idx c)) Hb') as (bs&groups&rest&->&R1&R2&R3&R4&R5&R6); [left; cbn; lia|]. cbn [bind].
      exists (b :: bs), (g :: groups), rest. split; [reflexivity|]. split; [constructor; assumption|]. cbn [concat app] in *. split; [now rewrite R2, app_assoc|]. split; [exact R3|]. split.
      { constructor; [|exact R4]. split; [exact Hne|]. destruct Hg as [Hl|Hf]; [left; destruct g as [|? [|]]; [congruence|reflexivity|cbn in Hl; lia]|now right]. }
      destruct R6 as (x&r&Hr); [discriminate|]. split; [|intros _; exists [], (groups ++ match rest with [] => [] | _ => [rest] end); now rewrite app_nil_r].
      apply chain_cons; [exact R5|]. intros g2 r2 He. rewrite Hr in He. injection He as <- <-. exists c, x. split; [reflexivity|]. intros Hf. apply Hc1 in Hf; [discriminate|exact Hne].
    + destruct (add_facts b g c Hb Hc) as (b'&->&Hb'). cbn [bind]. match goal with |- context [gen_recurrent lim cs b' ?t _] => set (tot := t) end. edestruct (IH b' (g ++ [c]) tot (Some (k_idx c)) Hb') as (bs&groups&rest&->&R1&R2&R3&R4&R5&R6).
      { destruct g as [|c0 g0]; [left; cbn; lia|]. right. apply Hc1; [discriminate|reflexivity]. }
      cbn [bind]. exists bs, groups, rest. split; [reflexivity|]. split; [exact R1|]. split; [rewrite <- R2, <- app_assoc; reflexivity|]. split; [exact R3|]. split; [exact R4|]. split; [exact R5|]. intros _. destruct R6 as (x&r&Hr); [destruct g; discriminate|]. rewrite Hr. exists (c :: x), r. now rewrite <- app_assoc.
Qed.
End P.

(** the limit on the total number of sequences *)
Lemma wanted_no_total lim K c : wanted (no_total lim) K c = wanted lim K c.
Proof. reflexivity. Qed.
Lemma total_facts' lim K n cs : K <> [] -> nd_value (l_ctx_left lim) = None -> nd_value (l_ctx_right lim) = None -> (forall k, has_key (l_ctx_left lim) k \/ has_key (l_ctx_right lim) k -> In k K) ->
  (forall w, nd_value (l_batch_size lim) = Some w -> 0 < w) -> (forall w, nd_value (l_max_pad lim) = Some w -> 0 <= w) -> l_max_total lim = Some n -> Forall (keyed1 K) cs -> forall b total last, (total <= S n)%nat ->
  exists m, gen_recurrent lim cs b total last = gen_recurrent (no_total lim) (firstn m cs) b total last /\
    (firstn m cs = cs \/ (total + runs_from last (map k_idx (filter (wanted lim K) (firstn m cs))) = S n)%nat) /\ (total + runs_from last (map k_idx (filter (wanted lim K) (firstn m cs))) <= S n)%nat.
Proof.
  intros Kne Cl Cr Ck Bp Pp Hn Hk. induction cs as [|c cs IH]; intros b total last Ht.
  - exists 0%nat. cbn. split; [reflexivity|]. split; [now left|lia].
  - inversion Hk as [|? ? Hc Hk']; subst. specialize (IH Hk'). cbn [gen_recurrent]. destruct (k_sample c) eqn:Es; cbn [negb].
    2:{ destruct (IH b total last Ht) as (m&->&H1&H2). exists (S m). cbn [firstn gen_recurrent filter]. rewrite Es. cbn [negb]. assert (Hw : wanted lim K c = false) by (unfold wanted; now rewrite Es). rewrite Hw. split; [reflexivity|]. split; [destruct H1 as [H1|H1]; [left; now rewrite H1|now right]|exact H2]. }
    rewrite Hn. cbn [over]. destruct (Nat.ltb_spec n total) as [Hlt|Hge].
    { exists 0%nat. cbn. split; [reflexivity|]. split; [right; lia|lia]. }
    assert (Hw : wanted lim K c = k_sample c && negb (skip_chunk lim c)) by (apply skip_wanted; assumption). rewrite Es in Hw. cbn [andb] in Hw. destruct (skip_chunk lim c) eqn:Esk.
    { destruct (IH b total last Ht) as (m&->&H1&H2). exists (S m). cbn [firstn gen_recurrent filter]. rewrite Es. cbn [negb no_total l_max_total over]. change (skip_chunk (no_total lim) c) with (skip_chunk lim c). rewrite Esk. rewrite Hw. cbn [negb]. split; [reflexivity|]. split; [destruct H1 as [H1|H1]; [left; now rewrite H1|now right]|exact H2]. }
    cbn [negb] in Hw. 
    set (same := match last with Some i => (k_idx c =? i)%nat | None => false end). 
    assert (Ht' : ((if same then total else S total) <= S n)%nat) by (destruct same; lia).
    assert (Hgo : forall m, gen_recurrent (no_total lim) (firstn (S m) (c :: cs)) b total last =
      (let* close := must_close lim b (length_of lim c) in
       let* b' := add_sequence_as_slice (if close then new_batch else b) (k_idx c) (start_of lim c) (length_of lim c) in
       let* bs := gen_recurrent (no_total lim) (firstn m cs) b' (if same then total else S total) (Some (k_idx c)) in
       Ok (if close then b :: bs else bs))).
    { intros m. cbn [firstn gen_recurrent]. rewrite Es. cbn [negb no_total l_max_total over]. change (skip_chunk (no_total lim) c) with (skip_chunk lim c). rewrite Esk. reflexivity. }
    assert (Hres : forall m, (firstn m cs = cs \/ ((if same then total else S total) + runs_from (Some (k_idx c)) (map k_idx (filter (wanted lim K) (firstn m cs))) = S n)%nat) -> ((if same then total else S total) + runs_from (Some (k_idx c)) (map k_idx (filter (wanted lim K) (firstn m cs))) <= S n)%nat ->
      (firstn (S m) (c :: cs) = c :: cs \/ (total + runs_from last (map k_idx (filter (wanted lim K) (firstn (S m) (c :: cs)))) = S n)%nat) /\ (total + runs_from last (map k_idx (filter (wanted lim K) (firstn (S m) (c :: cs)))) <= S n)%nat).
    { intros m H1 H2. cbn [firstn filter]. rewrite Hw. cbn [map runs_from]. fold same. split; [destruct H1 as [H1|H1]; [left; now rewrite H1|right]|]; destruct same; lia. }
    destruct (must_close lim b (length_of lim c)) as [cl|e] eqn:Ecl; cbn [bind] in *.
    2:{ destruct (IH new_batch _ (Some (k_idx c)) Ht') as (m&_&H1&H2). exists (S m). rewrite Hgo. split; [reflexivity|]. now apply Hres. }
    destruct (add_sequence_as_slice (if cl then new_batch else b) (k_idx c) (start_of lim c) (length_of lim c)) as [b'|e] eqn:Ea; cbn [bind] in *.
    2:{ destruct (IH new_batch _ (Some (k_idx c)) Ht') as (m&_&H1&H2). exists (S m). rewrite Hgo. split; [reflexivity|]. now apply Hres. }
    destruct (IH b' _ (Some (k_idx c)) Ht') as (m&He&H1&H2). exists (S m). rewrite Hgo, He. split; [reflexivity|]. now apply Hres.
Qed.

(** * non-recurrent nets *)
Lemma range_split s m e : s <= m -> m <= e -> range s e = range s m ++ range m e.
Proof.
  intros H1 H2. unfold range. replace (Z.to_nat (e - s)) with (Z.to_nat (m - s) + Z.to_nat (e - m))%nat by lia. rewrite seq_app, map_app. f_equal. cbn [Nat.add]. apply nth_error_ext. intros i. rewrite !nth_error_map.
  destruct (Nat.lt_ge_cases i (Z.to_nat (e - m))) as [Hl|Hg].
  - rewrite !nth_error_seq by lia. cbn. f_equal. lia.
  - rewrite !(proj2 (nth_error_None _ _)) by (rewrite seq_length; lia). reflexivity.
Qed.
Lemma range_nil s e : e <= s -> range s e = [].
Proof. intros H. unfold range. replace (Z.to_nat (e - s)) with 0%nat by lia. reflexivity. Qed.
Lemma range_length s e : length (range s e) = Z.to_nat (e - s).
Proof. unfold range. now rewrite map_length, seq_length. Qed.
Lemma chunk_split i s m e : s <= m -> m <= e -> chunk_frames (i, s, e) = chunk_frames (i, s, m) ++ chunk_frames (i, m, e).
Proof. intros H1 H2. cbn [chunk_frames]. rewrite (range_split s m e H1 H2), map_app. reflexivity. Qed.
Lemma chunk_length i s e : length (chunk_frames (i, s, e)) = Z.to_nat (e - s).
Proof. cbn [chunk_frames]. now rewrite map_length, range_length. Qed.

Definition finv (b : fbatch) : Prop := fb_frames b = Z.of_nat (length (batch_frames b)) /\ contiguous b.
Lemma finv_new : finv new_fbatch.
Proof. split; [reflexivity|]. intros [|] p r H; discriminate. Qed.
Lemma finv_add b i s n : finv b -> 0 < n -> finv (add_frames b i s n) /\ batch_frames (add_frames b i s n) = batch_frames b ++ chunk_frames (i, s, s + n) /\ fb_frames (add_frames b i s n) = fb_frames b + n.
Proof.
  intros [H1 H2] Hn. assert (Hb : batch_frames (add_frames b i s n) = batch_frames b ++ chunk_frames (i, s, s + n)) by (unfold batch_frames, add_frames; cbn [fb_seqs]; rewrite flat_map_app; cbn [flat_map f_idx f_start f_end]; now rewrite app_nil_r).
  split; [|split; [exact Hb|reflexivity]]. split.
  - rewrite Hb, app_length, chunk_length. cbn [add_frames fb_frames]. lia.
  - intros l p r He. unfold add_frames in He. cbn [fb_seqs] in He. destruct r as [|x r] using rev_ind.
    + apply app_inj_tail in He. destruct He as [<- <-]. cbn [f_offset f_start f_end]. split; [exact H1|lia].
    + clear IHr. change (p :: r ++ [x]) with ((p :: r) ++ [x]) in He. rewrite app_assoc in He. apply app_inj_tail in He. destruct He as [He _]. now apply (H2 l p r).
Qed.
Lemma fold_max_In is_ i : In (fold_left Nat.max is_ i) (i :: is_) /\ forall x, In x (i :: is_) -> (x <= fold_left Nat.max is_ i)%nat.
Proof.
  revert i. induction is_ as [|a l IH]; intros i; cbn [fold_left]; [split; [now left|intros x [<-|[]]; lia]|]. destruct (IH (Nat.max i a)) as [H1 H2]. split.
  - destruct H1 as [H1|H1]; [|right; now right]. rewrite <- H1. destruct (Nat.max_spec i a) as [[_ ->]|[_ ->]]; [right; now left|now left].
  - intros x [<-|[<-|Hx]]; [specialize (H2 _ (or_introl eq_refl)); lia|specialize (H2 _ (or_introl eq_refl)); lia|apply H2; now right].
Qed.
Lemma fold_min_In is_ i : In (fold_left Nat.min is_ i) (i :: is_) /\ forall x, In x (i :: is_) -> (fold_left Nat.min is_ i <= x)%nat.
Proof.
  revert i. induction is_ as [|a l IH]; intros i; cbn [fold_left]; [split; [now left|intros x [<-|[]]; lia]|]. destruct (IH (Nat.min i a)) as [H1 H2]. split.
  - destruct H1 as [H1|H1]; [|right; now right]. rewrite <- H1. destruct (Nat.min_spec i a) as [[_ ->]|[_ ->]]; [now left|right; now left].
  - intros x [<-|[<-|Hx]]; [specialize (H2 _ (or_introl eq_refl)); lia|specialize (H2 _ (or_introl eq_refl)); lia|apply H2; now right].
Qed.
Lemma num_seqs_span b m : (0 < m)%nat -> (m < num_seqs b)%nat -> exists i j, In i (map f_idx (fb_seqs b)) /\ In j (map f_idx (fb_seqs b)) /\ (i + m <= j)%nat.
Proof.
  unfold num_seqs. intros H0 H. destruct (map f_idx (fb_seqs b)) as [|i l]; [lia|]. exists (fold_left Nat.min l i), (fold_left Nat.max l i). split; [apply fold_min_In|]. split; [apply fold_max_In|lia].
Qed.
Lemma distinct_le b : (length (nodup Nat.eq_dec (map f_idx (fb_seqs b))) <= num_seqs b)%nat.
Proof.
  unfold num_seqs. destruct (map f_idx (fb_seqs b)) as [|i l]; [cbn; lia|]. set (a := fold_left Nat.min l i). set (z := fold_left Nat.max l i).
  assert (Hle : (a <= z)%nat) by (pose proof (proj2 (fold_min_In l i) i (or_introl eq_refl)); pose proof (proj2 (fold_max_In l i) i (or_introl eq_refl)); unfold a, z; lia).
  rewrite <- (seq_length (z + 1 - a) a). apply NoDup_incl_length; [apply NoDup_nodup|]. intros x Hx. apply nodup_In in Hx.
  pose proof (proj2 (fold_min_In l i) x Hx). pose proof (proj2 (fold_max_In l i) x Hx). apply in_seq. unfold a, z in *. lia.
Qed.
Lemma nodup_snoc (l : list nat) x : (length (nodup Nat.eq_dec (l ++ [x])) <= S (length (nodup Nat.eq_dec l)))%nat.
Proof.
  change (S (length (nodup Nat.eq_dec l))) with (length (x :: nodup Nat.eq_dec l)). apply NoDup_incl_length; [apply NoDup_nodup|]. intros y Hy. apply nodup_In, in_app_or in Hy. destruct Hy as [Hy|[<-|[]]]; [right; now apply nodup_In|now left].
Qed.
Section NR.
Variables (bsize : Z) (ms : option nat).
Hypothesis bpos : 0 < bsize.
Definition full (b : fbatch) : Prop := finv b /\ 0 < fb_frames b <= bsize /\ (fb_frames b = bsize \/ exists m, ms = Some m /\ (m < num_seqs b)%nat) /\ (forall m, ms = Some m -> (length (nodup Nat.eq_dec (map f_idx (fb_seqs b))) <= S m)%nat).
Definition few (b : fbatch) : Prop := forall m, ms = Some m -> (num_seqs b <= m)%nat.
Lemma few_new : few new_fbatch.
Proof. intros m _. cbn. lia. Qed.
Lemma few_add b i s n m : few b -> ms = Some m -> (length (nodup Nat.eq_dec (map f_idx (fb_seqs (add_frames b i s n)))) <= S m)%nat.
Proof. intros H E. cbn [add_frames fb_seqs]. rewrite map_app. cbn [map f_idx]. pose proof (nodup_snoc (map f_idx (fb_seqs b)) i). pose proof (distinct_le b). specialize (H m E). lia. Qed.
Lemma nr_seq_facts fuel i e : forall s b, finv b -> few b -> 0 <= fb_frames b < bsize -> (Z.to_nat (e - s) <= fuel)%nat ->
  exists bs b', nr_seq fuel bsize ms i s e b = Ok (bs, b') /\ (finv b' /\ few b') /\ 0 <= fb_frames b' < bsize /\ Forall full bs /\ batch_frames b ++ chunk_frames (i, s, e) = flat_map batch_frames bs ++ batch_frames b'.
Proof.
  induction fuel as [|fuel IH]; intros s b Hf Hw Hb Hfu; cbn [nr_seq].
  - destruct (Z.ltb_spec s e); [lia|]. exists [], b. split; [reflexivity|]. split; [now split|]. split; [exact Hb|]. split; [constructor|]. cbn [chunk_frames]. rewrite range_nil by lia. cbn. now rewrite app_nil_r.
  - destruct (Z.ltb_spec s e) as [Hlt|Hge].
    2:{ exists [], b. split; [reflexivity|]. split; [now split|]. split; [exact Hb|]. split; [constructor|]. cbn [chunk_frames]. rewrite range_nil by lia. cbn. now rewrite app_nil_r. }
    set (n := Z.min (e - s) (bsize - fb_frames b)). assert (Hn : 0 < n) by (unfold n; lia). apply Z.ltb_lt in Hn as ->. cbn [assert_ bind].
    assert (Hn : 0 < n) by (unfold n; lia). destruct (finv_add b i s n Hf Hn) as (F1&F2&F3). set (b1 := add_frames b i s n) in *. rewrite (chunk_split i s (s + n) e), app_assoc, <- F2 by (unfold n; lia).
    destruct ((bsize <=? fb_frames b1) || over (num_seqs b1) ms) eqn:E.
    + destruct (IH (s + n) new_fbatch finv_new few_new) as (bs&b'&->&R1&R2&R3&R4); [cbn; lia|lia|]. cbn [bind]. exists (b1 :: bs), b'. split; [reflexivity|]. split; [exact R1|]. split; [exact R2|]. split; [|cbn [flat_map]; rewrite <- app_assoc, <- R4; reflexivity].
      constructor; [|exact R3]. split; [exact F1|]. split; [unfold n in *; lia|]. split; [|intros m Em; now apply few_add]. apply orb_true_iff in E. destruct E as [E|E]; [left; apply Z.leb_le in E; unfold n in *; lia|right]. unfold over in E. destruct ms as [m|]; [|discriminate]. exists m. split; [reflexivity|]. now apply Nat.ltb_lt.
    + apply orb_false_iff in E. destruct E as [E E']. apply Z.leb_gt in E. apply (IH (s + n) b1 F1); [|lia|lia]. intros m Em. unfold over in E'. rewrite Em in E'. now apply Nat.ltb_ge.
Qed.
Lemma gen_nonrec_facts cs : forall b total last, finv b -> few b -> 0 <= fb_frames b < bsize ->
  exists bs lst, gen_nonrec bsize ms None cs b total last = Ok (bs ++ lst) /\ Forall full bs /\ (lst = [] \/ exists b', lst = [b'] /\ (finv b' /\ few b') /\ 0 < fb_frames b' < bsize) /\
    batch_frames b ++ flat_map chunk_frames cs = flat_map batch_frames (bs ++ lst).
Proof.
  induction cs as [|[[i s] e] cs IH]; intros b total last Hf Hw Hb; cbn [gen_nonrec over].
  - destruct (Z.ltb_spec 0 (fb_frames b)) as [Hp|Hz].
    + exists [], [b]. split; [reflexivity|]. split; [constructor|]. split; [right; exists b; split; [reflexivity|]; split; [now split|lia]|]. cbn. now rewrite !app_nil_r.
    + exists [], []. split; [reflexivity|]. split; [constructor|]. split; [now left|]. destruct Hf as [Hf _]. destruct (batch_frames b); [reflexivity|cbn in Hf; lia].
  - destruct (nr_seq_facts (Z.to_nat (e - s)) i e s b Hf Hw Hb) as (bs&b'&->&[R1 Rw]&R2&R3&R4); [lia|]. cbn [bind].
    match goal with |- context [gen_nonrec bsize ms None cs b' ?t ?l] => destruct (IH b' t l R1 Rw R2) as (bs2&lst&->&Q1&Q2&Q3) end. cbn [bind]. exists (bs ++ bs2), lst. rewrite <- app_assoc. split; [reflexivity|]. split; [apply Forall_app; now split|]. split; [exact Q2|].
    cbn [flat_map]. rewrite app_assoc, R4, <- app_assoc, Q3. now rewrite !flat_map_app.
Qed.
End NR.

Lemma start_ok lim : positive (l_batch_size lim) -> (forall m, l_max_seqs lim = Some m -> (0 < m)%nat) -> forall cs,
  generate_recurrent lim cs = gen_recurrent lim cs new_batch 0 None /\ forall w, nd_value (l_batch_size lim) = Some w -> 0 < w.
Proof.
  intros [Hne Hpos] Hms cs. split; [|intros w Hw; apply Hpos, values_In; now right]. unfold generate_recurrent.
  assert (Hb : nd_bool (l_batch_size lim) = true).
  { unfold nd_bool. apply existsb_exists. destruct (nd_values (l_batch_size lim)) as [|w l]; [congruence|]. exists w. split; [now left|]. specialize (Hpos w (or_introl eq_refl)). apply negb_true_iff, Z.eqb_neq. lia. }
  rewrite Hb. cbn [negb].
  assert (Ha : any_compare Z.leb (l_batch_size lim) (nd_make (OpNum 0)) = false).
  { unfold any_compare. cbn [nd_make nd_dict nd_value dget]. apply orb_false_iff. split.
    - apply not_true_is_false. intros H. apply existsb_exists in H. destruct H as ([k v]&Hin&H). cbn in H. apply Z.leb_le in H. assert (0 < v) by (apply Hpos, values_In; left; now exists k). lia.
    - destruct (nd_value (l_batch_size lim)) as [v|] eqn:E; [|reflexivity]. apply Z.leb_gt. apply Hpos, values_In. now right. }
  rewrite Ha. cbn [negb assert_ bind]. assert (Hm : match l_max_seqs lim with Some m => (0 <? m)%nat | None => true end = true) by (destruct (l_max_seqs lim) as [m|]; [apply Nat.ltb_lt; auto|reflexivity]). now rewrite Hm.
Qed.

Lemma start_refuses lim cs : (exists v, In v (nd_values (l_batch_size lim)) /\ v <= 0) \/ nd_values (l_batch_size lim) = [] \/ l_max_seqs lim = Some 0%nat ->
  exists e, generate_recurrent lim cs = Err e.
Proof.
  intros H. unfold generate_recurrent. destruct (nd_bool (l_batch_size lim)) eqn:Hb; [|eexists; reflexivity]. cbn [negb].
  destruct (any_compare Z.leb (l_batch_size lim) (nd_make (OpNum 0))) eqn:Ha; [eexists; reflexivity|]. cbn [negb assert_ bind].
  destruct H as [(v&Hv&Hp)|[H|H]].
  - exfalso. unfold any_compare in Ha. cbn [nd_make nd_dict nd_value dget] in Ha. apply orb_false_iff in Ha. destruct Ha as [Ha Hc]. apply values_In in Hv. destruct Hv as [(k&Hk)|Hv].
    + apply not_true_iff_false in Ha. apply Ha. apply existsb_exists. exists (k, v). split; [exact Hk|]. now apply Z.leb_le.
    + rewrite Hv in Hc. apply Z.leb_gt in Hc. lia.
  - unfold nd_bool in Hb. rewrite H in Hb. discriminate.
  - rewrite H. eexists. reflexivity.
Qed.
