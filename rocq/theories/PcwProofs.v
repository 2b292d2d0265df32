From Coq Require Import QArith Lqa Sorted.
From Verif Require Import Base ListLemmas LrModel LrProofs SearchModel SearchSpec SearchProofs PcwModel.
Local Open Scope nat_scope. Local Open Scope list_scope.

Lemma frac_between a b : (0 <= a <= b)%Q -> (0 < b)%Q -> exists f, clipped_frac a b = Some f /\ (f == a / b)%Q.
Proof.
  intros [H1 H2] Hb. unfold clipped_frac. destruct (Qeq_bool b 0) eqn:E; [apply Qeq_bool_iff in E; lra|].
  assert (0 <= a / b)%Q by (apply Qle_shift_div_l; lra). assert (a / b <= 1)%Q by (apply Qle_shift_div_r; lra).
  destruct (Qlt_bool (a / b) 0) eqn:E1; [apply Qlt_bool_iff in E1; lra|]. destruct (Qlt_bool 1 (a / b)) eqn:E2; [apply Qlt_bool_iff in E2; lra|]. eexists. split; reflexivity.
Qed.
Lemma frac_low a b : (a <= 0)%Q -> (0 < b)%Q -> exists f, clipped_frac a b = Some f /\ (f == 0)%Q.
Proof.
  intros H1 Hb. unfold clipped_frac. destruct (Qeq_bool b 0) eqn:E; [apply Qeq_bool_iff in E; lra|]. assert (a / b <= 0)%Q by (apply Qle_shift_div_r; lra).
  eexists. split; [reflexivity|]. destruct (Qlt_bool (a / b) 0) eqn:E1; [reflexivity|]. apply Qlt_bool_false in E1. destruct (Qlt_bool 1 (a / b)) eqn:E2; [apply Qlt_bool_iff in E2; lra|]. lra.
Qed.
Lemma frac_high a b : (b <= a)%Q -> (0 < b)%Q -> exists f, clipped_frac a b = Some f /\ (f == 1)%Q.
Proof.
  intros H1 Hb. unfold clipped_frac. destruct (Qeq_bool b 0) eqn:E; [apply Qeq_bool_iff in E; lra|]. assert (1 <= a / b)%Q by (apply Qle_shift_div_l; lra).
  eexists. split; [reflexivity|]. destruct (Qlt_bool (a / b) 0) eqn:E1; [apply Qlt_bool_iff in E1; lra|]. destruct (Qlt_bool 1 (a / b)) eqn:E2; [reflexivity|]. apply Qlt_bool_false in E2. lra.
Qed.
Lemma pcw_items points : points <> [] -> pcw_init points = Ok (sort_items points).
Proof. destruct points; [contradiction|reflexivity]. Qed.
Lemma pcw_at ndim points x i a b : points <> [] -> clamp (bisect_left (map fst (sort_items points)) x) 1 (length (sort_items points) - 1) = S i ->
  nth_error (sort_items points) i = Some a -> nth_error (sort_items points) (S i) = Some b ->
  pcw_call ndim points x = Ok (match clipped_frac (x - fst a) (fst b - fst a) with Some f => Some (snd a + f * (snd b - snd a))%Q | None => None end).
Proof.
  intros Hp Hc Ha Hb. unfold pcw_call. rewrite (pcw_items _ Hp). cbn [bind]. rewrite map_length, Hc. cbn [pred_index gather_at]. rewrite !nth_error_map, Ha, Hb. reflexivity.
Qed.
Lemma pcw_cases ndim points x : distinct_keys points -> 2 <= length points -> exists i a b y,
  nth_error (sort_items points) i = Some a /\ nth_error (sort_items points) (S i) = Some b /\ (fst a < fst b)%Q /\ pcw_call ndim points x = Ok (Some y) /\
  ((i = 0 /\ (x <= fst a)%Q /\ (y == snd a)%Q) \/ (S (S i) = length points /\ (fst b <= x)%Q /\ (y == snd b)%Q) \/
   ((fst a <= x <= fst b)%Q /\ (y == snd a + (snd b - snd a) / (fst b - fst a) * (x - fst a))%Q)).
Proof.
  intros Hd Hl. pose proof (sort_items_sorted points Hd) as Hs. pose proof (Permutation_length (sort_items_perm points)) as Hlen. assert (Hp : points <> []) by (destruct points; [cbn in Hl; lia|discriminate]).
  pose proof (bisect_left_spec (map fst (sort_items points)) x (sorted_weakly _ Hs)) as (B1 & B2 & B3). rewrite map_length in B1, B3. set (k := bisect_left (map fst (sort_items points)) x) in *.
  assert (Hat : forall i, S i = clamp k 1 (length (sort_items points) - 1) -> exists a b, nth_error (sort_items points) i = Some a /\ nth_error (sort_items points) (S i) = Some b /\ (fst a < fst b)%Q /\
    pcw_call ndim points x = Ok (match clipped_frac (x - fst a) (fst b - fst a) with Some f => Some (snd a + f * (snd b - snd a))%Q | None => None end) /\
    nth i (map fst (sort_items points)) 0%Q = fst a /\ nth (S i) (map fst (sort_items points)) 0%Q = fst b).
  { intros i Hi. assert (Hi2 : S i < length (sort_items points)) by (unfold clamp in Hi; lia). destruct (nth_error (sort_items points) i) as [a|] eqn:Ea; [|apply nth_error_None in Ea; lia]. destruct (nth_error (sort_items points) (S i)) as [b|] eqn:Eb; [|apply nth_error_None in Eb; lia].
    exists a, b. split; [reflexivity|]. split; [reflexivity|]. split; [eapply (sorted_nth _ i (S i)); eauto|]. split; [eapply pcw_at; [exact Hp|symmetry; exact Hi|exact Ea|exact Eb]|]. split; apply nth_keys; assumption. }
  destruct (Nat.eq_dec k 0) as [K0|K0]; [|destruct (le_lt_dec (length (sort_items points)) k) as [K1|K1]].
  - destruct (Hat 0) as (a & b & Ea & Eb & Hab & E & Na & Nb); [unfold clamp; lia|]. assert (Hx : (x <= fst a)%Q) by (rewrite <- Na; apply B3; lia).
    destruct (frac_low (x - fst a) (fst b - fst a)) as (f & Ef & Hf); [lra|lra|]. rewrite Ef in E. exists 0, a, b. eexists. split; [exact Ea|]. split; [exact Eb|]. split; [exact Hab|]. split; [exact E|]. left. split; [reflexivity|]. split; [exact Hx|]. rewrite Hf. lra.
  - destruct (Hat (length points - 2)) as (a & b & Ea & Eb & Hab & E & Na & Nb); [unfold clamp; lia|]. assert (Hx : (fst b < x)%Q) by (rewrite <- Nb; apply B2; lia).
    destruct (frac_high (x - fst a) (fst b - fst a)) as (f & Ef & Hf); [lra|lra|]. rewrite Ef in E. exists (length points - 2), a, b. eexists. split; [exact Ea|]. split; [exact Eb|]. split; [exact Hab|]. split; [exact E|]. right. left. split; [lia|]. split; [lra|]. rewrite Hf. lra.
  - destruct (Hat (k - 1)) as (a & b & Ea & Eb & Hab & E & Na & Nb); [unfold clamp; lia|]. assert (Hx : (fst a < x)%Q) by (rewrite <- Na; apply B2; lia). assert (Hx2 : (x <= fst b)%Q) by (rewrite <- Nb; apply B3; lia).
    destruct (frac_between (x - fst a) (fst b - fst a)) as (f & Ef & Hf); [lra|lra|]. rewrite Ef in E. exists (k - 1), a, b. eexists. split; [exact Ea|]. split; [exact Eb|]. split; [exact Hab|]. split; [exact E|]. right. right. split; [lra|]. rewrite Hf. field. lra.
Qed.
Lemma In_sorted {V} (points : list (Q * V)) i a : nth_error (sort_items points) i = Some a -> In a points.
Proof. intros H. eapply Permutation_in; [apply sort_items_perm|eapply nth_error_In, H]. Qed.
Lemma sorted_index {V} (points : list (Q * V)) a : In a points -> exists i, nth_error (sort_items points) i = Some a.
Proof. intros H. apply In_nth_error. eapply Permutation_in; [apply Permutation_sym, sort_items_perm|exact H]. Qed.
Lemma pcw_same ndim points x : distinct_keys points -> 2 <= length points ->
  exists y y', pcw_call ndim points x = Ok (Some y) /\ linear_call points x = Ok y' /\ (y == y')%Q.
Proof.
  intros Hd Hl. destruct (pcw_cases ndim points x Hd Hl) as (i & a & b & y & Ea & Eb & Hab & E & H). pose proof (sort_items_sorted points Hd) as Hs. pose proof (Permutation_length (sort_items_perm points)) as Hlen. exists y.
  pose proof (In_sorted _ _ _ Ea) as Ia. pose proof (In_sorted _ _ _ Eb) as Ib. destruct a as [k1 v1], b as [k2 v2]. cbn [fst snd] in *.
  assert (Hn : forall k v, In (k, v) points -> (k <= k1)%Q \/ (k2 <= k)%Q).
  { intros k v Hk. destruct (sorted_index _ _ Hk) as (j & Ej). destruct (lt_eq_lt_dec j i) as [[L|L]|L].
    - left. apply Qlt_le_weak. exact (sorted_nth _ j i _ _ Hs L Ej Ea).
    - left. subst j. rewrite Ej in Ea. injection Ea as -> ->. lra.
    - right. destruct (Nat.eq_dec j (S i)) as [->|N]; [rewrite Ej in Eb; injection Eb as -> ->; lra|]. apply Qlt_le_weak. apply (sorted_nth _ (S i) j _ _ Hs ltac:(lia) Eb Ej). }
  destruct H as [(-> & Hx & Hy)|[(Hi & Hx & Hy)|[Hx Hy]]].
  - destruct (linear_left points x k1 v1 Hd Ia) as (y' & E' & Hy'); [|exact Hx|].
    + intros k v Hk. destruct (sorted_index _ _ Hk) as ([|j] & Ej); [rewrite Ej in Ea; injection Ea as -> ->; lra|]. apply Qlt_le_weak. apply (sorted_nth _ 0 (S j) _ _ Hs ltac:(lia) Ea Ej).
    + exists y'. split; [exact E|]. split; [exact E'|]. rewrite Hy, Hy'. reflexivity.
  - destruct (linear_right points x k2 v2 Hd Ib) as (y' & E' & Hy'); [|exact Hx|].
    + intros k v Hk. destruct (sorted_index _ _ Hk) as (j & Ej). assert (Hj : j < length (sort_items points)) by (apply nth_error_Some; congruence). destruct (Nat.eq_dec j (S i)) as [->|N]; [rewrite Ej in Eb; injection Eb as -> ->; lra|]. apply Qlt_le_weak. apply (sorted_nth _ j (S i) _ _ Hs ltac:(lia) Ej Eb).
    + exists y'. split; [exact E|]. split; [exact E'|]. rewrite Hy, Hy'. reflexivity.
  - destruct (linear_between points x k1 v1 k2 v2 Hd Ia Ib) as (y' & E' & Hy'); [split; [exact Hab|exact Hn]|lra|lra|]. exists y'. split; [exact E|]. split; [exact E'|]. rewrite Hy, Hy'. reflexivity.
Qed.
Lemma pcw_one ndim k v x : pcw_call ndim [(k, v)] x =
  if ndim <=? 1 then Ok (match clipped_frac (x - k) (k - k) with Some f => Some (v + f * (v - v))%Q | None => None end) else Err IndexError.
Proof.
  unfold pcw_call. cbn [pcw_init sort_items insert_item bind map fst snd length Nat.sub]. replace (clamp (bisect_left [k] x) 1 0) with 0 by (unfold clamp; lia). cbn [pred_index gather_at length Nat.sub nth_error]. destruct (ndim <=? 1); reflexivity.
Qed.
