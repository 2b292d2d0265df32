(** Proofs for C06 and C07. *)
From Verif Require Import Base ListLemmas SeqOrderModel SeqOrderProofs WorkerModel WorkerSpec.
From Coq Require Import Sorted.

Section W.
  Context {D : Type}.
  Variable bs : nat.
  Notation wst := (wstate D).

  (** the numbered window [a, b) of l *)
  Definition window (l : list D) (a b : nat) : list (nat * D) :=
    pyslice (combine (seq 0 (length l)) l) a b.

  Lemma combine_nth_error (l : list D) i : nth_error (combine (seq 0 (length l)) l) i = option_map (pair i) (nth_error l i).
  Proof.
    assert (H : forall a, nth_error (combine (seq a (length l)) l) i = option_map (pair (a + i)) (nth_error l i)).
    { revert i. induction l as [|x l IH]; intros i a; [now destruct i|].
      destruct i; cbn; [now rewrite Nat.add_0_r|]. rewrite IH. now rewrite Nat.add_succ_r. }
    apply (H 0).
  Qed.
  Lemma combine_len (l : list D) : length (combine (seq 0 (length l)) l) = length l.
  Proof. rewrite combine_length, seq_length. lia. Qed.

  Lemma window_nil l a : window l a a = [].
  Proof. apply pyslice_nil. Qed.
  Lemma window_length l a b : b <= length l -> length (window l a b) = b - a.
  Proof. intros H. apply pyslice_length. now rewrite combine_len. Qed.
  Lemma window_snoc l a b d : a <= b -> nth_error l b = Some d -> window l a (S b) = window l a b ++ [(b, d)].
  Proof.
    intros Hab H. unfold window. rewrite (pyslice_split _ a b (S b)) by lia. f_equal.
    unfold pyslice. replace (S b - b) with 1 by lia.
    pose proof (combine_nth_error l b) as Hc. rewrite H in Hc. cbn in Hc.
    revert Hc. generalize (combine (seq 0 (length l)) l) as m. generalize (b, d) as x. clear.
    intros x. induction b as [|b IH]; intros m H.
    - destruct m; [discriminate|]. cbn in *. congruence.
    - destruct m; [discriminate|]. cbn in *. now apply IH.
  Qed.
  Lemma window_cons l a b d : a < b -> nth_error l a = Some d -> window l a b = (a, d) :: window l (S a) b.
  Proof.
    intros Hab H. unfold window. rewrite (pyslice_split _ a (S a) b) by lia.
    change (window l a (S a) ++ window l (S a) b = (a, d) :: window l (S a) b).
    rewrite (window_snoc l a a d) by auto. now rewrite window_nil.
  Qed.
  Lemma nth_error_lt (l : list D) i : i < length l -> exists d, nth_error l i = Some d.
  Proof. intros H. destruct (nth_error l i) eqn:E; [eauto|]. apply nth_error_None in E. lia. Qed.

  (** cache = window [c0, next) *)
  Definition shape (l : list D) (c0 : nat) (s : wst) : Prop :=
    ds D s = Some l /\ cache D s = window l c0 (next_seq_idx D s)
    /\ c0 <= next_seq_idx D s /\ next_seq_idx D s <= length l /\ next_seq_idx D s - c0 <= bs.

  Definition reach (l : list D) (lo hi : nat) (s : wst) : Prop :=
    exists c0, shape l c0 s /\ c0 <= lo
      /\ (forall j, lo <= j -> j < hi -> j < length l -> j + 1 <= next_seq_idx D s + bs).

  Lemma add_to_cache_ok l c0 s :
    shape l c0 s -> next_seq_idx D s < length l -> next_seq_idx D s - c0 < bs ->
    exists s', add_to_cache D bs l s = (true, s') /\ shape l c0 s' /\ next_seq_idx D s' = S (next_seq_idx D s).
  Proof.
    intros (Hd&Hc&H1&H2&H3) Hn Hb. unfold add_to_cache.
    rewrite Hc, window_length by auto. destruct (Nat.leb_spec bs (next_seq_idx D s - c0)); [lia|].
    destruct (nth_error_lt l _ Hn) as (d&E). rewrite E. eexists. split; [reflexivity|]. cbn.
    split; [|reflexivity]. unfold shape; cbn [cache next_seq_idx ds].
    split; [exact Hd|]. split; [symmetry; now apply window_snoc|]. lia.
  Qed.

  Lemma add_to_cache_shape l c0 s b s' :
    shape l c0 s -> add_to_cache D bs l s = (b, s') ->
    shape l c0 s' /\ next_seq_idx D s <= next_seq_idx D s'.
  Proof.
    intros Hs H. pose proof Hs as (Hd&Hc&H1&H2&H3). unfold add_to_cache in H.
    destruct (Nat.leb_spec bs (length (cache D s))) as [|Hb]; [injection H as <- <-; auto|].
    destruct (nth_error l (next_seq_idx D s)) eqn:E; [|injection H as <- <-; auto].
    rewrite Hc, window_length in Hb by auto.
    destruct (add_to_cache_ok l c0 s Hs) as (s2&Ha&Hs2&Hn).
    - apply nth_error_Some. congruence.
    - exact Hb.
    - unfold add_to_cache in Ha. rewrite Hc, window_length in Ha by auto.
      destruct (Nat.leb_spec bs (next_seq_idx D s - c0)); [lia|]. rewrite E in Ha.
      rewrite Hc in H. rewrite Ha in H. injection H as <- <-. split; [exact Hs2|lia].
  Qed.

  Lemma prefetch_shape l c0 k : forall s, shape l c0 s ->
    shape l c0 (prefetch D bs k s) /\ next_seq_idx D s <= next_seq_idx D (prefetch D bs k s).
  Proof.
    induction k as [|k IH]; intros s Hs; cbn [prefetch]; [split; [exact Hs|lia]|].
    pose proof Hs as (Hd&_). rewrite Hd.
    destruct (add_to_cache D bs l s) as [[] s'] eqn:E; [|split; [exact Hs|lia]].
    apply (add_to_cache_shape l c0) in E as [Hs' Hn]; [|exact Hs].
    destruct (IH s' Hs'). split; [auto|lia].
  Qed.

  Lemma prefetch_reach l lo hi k s : reach l lo hi s -> reach l lo hi (prefetch D bs k s).
  Proof.
    intros (c0&Hs&Hlo&Hj). destruct (prefetch_shape l c0 k s Hs) as [Hs' Hn].
    exists c0. split; [exact Hs'|]. split; [exact Hlo|]. intros j H1 H2 H3. specialize (Hj j H1 H2 H3). lia.
  Qed.

  Lemma prefetch_none k s : ds D s = None -> prefetch D bs k s = s.
  Proof. intros H. destruct k; cbn; [reflexivity|]. now rewrite H. Qed.

  Lemma pop_older_window l b i : b <= length l -> forall a, a <= b ->
    pop_older D (window l a b) i = window l (max a (min i b)) b.
  Proof.
    intros Hb a. remember (b - a) as n eqn:En. revert a En. induction n as [|n IH]; intros a En Ha.
    - replace a with b by lia. rewrite Nat.max_l by lia. now rewrite window_nil.
    - destruct (nth_error_lt l a) as (d&Hd); [lia|]. rewrite (window_cons l a b d) by (auto; lia).
      cbn [pop_older fst]. destruct (Nat.ltb_spec a i).
      + rewrite IH by lia. f_equal. lia.
      + replace (max a (min i b)) with a by lia. now rewrite (window_cons l a b d) by (auto; lia).
  Qed.

  Lemma rev_window_last l a b : a < b -> b <= length l ->
    exists d rest, nth_error l (b - 1) = Some d /\ rev (window l a b) = (b - 1, d) :: rest.
  Proof.
    intros H1 H2. destruct (nth_error_lt l (b - 1)) as (d&Hd); [lia|].
    exists d, (rev (window l a (b - 1))). split; [exact Hd|].
    replace b with (S (b - 1)) at 1 by lia. rewrite (window_snoc l a (b - 1) d) by (auto; lia).
    now rewrite rev_app_distr.
  Qed.

  Lemma get_loop_ok l i c0 : forall fuel s,
    shape l c0 s -> i < length l -> next_seq_idx D s <= i -> i + 1 - c0 <= bs -> i < next_seq_idx D s + fuel ->
    exists s', get_loop D bs fuel l i s = Ok (s', option_map (pair i) (nth_error l i)) /\ shape l c0 s'
      /\ next_seq_idx D s' = i + 1.
  Proof.
    induction fuel as [|fuel IH]; intros s Hs Hi Hn Hb Hf; [lia|].
    cbn [get_loop]. pose proof Hs as (Hd&Hc&H1&H2&H3).
    destruct (add_to_cache_ok l c0 s Hs) as (s'&Ha&Hs'&Hn'); [lia|lia|]. rewrite Ha.
    pose proof Hs' as (Hd'&Hc'&H1'&H2'&H3'). rewrite Hc', Hn'.
    destruct (rev_window_last l c0 (S (next_seq_idx D s))) as (d&rest&Hnd&->); [lia|lia|].
    replace (S (next_seq_idx D s) - 1) with (next_seq_idx D s) in * by lia. cbn [fst].
    destruct (Nat.leb_spec (next_seq_idx D s) i); [|lia]. cbn [assert_ bind].
    destruct (Nat.eqb_spec (next_seq_idx D s) i) as [E|E].
    - exists s'. split; [|split; [exact Hs'|lia]]. rewrite <- E, Hnd. reflexivity.
    - apply IH; auto; lia.
  Qed.

  Lemma handle_get_ok l lo hi i s :
    reach l lo hi s -> lo <= i -> (i < length l -> i < hi) ->
    exists s', handle D bs (MGet D i) s = Ok (s', [RSeq D (option_map (pair i) (nth_error l i))])
      /\ reach l i (i + 1 + bs) s'.
  Proof.
    intros (c0&Hs&Hlo&Hj) Hi Hhi. pose proof Hs as (Hd&Hc&H1&H2&H3).
    cbn [handle]. rewrite Hd, Hc, pop_older_window by auto.
    set (c1 := max c0 (min i (next_seq_idx D s))).
    set (s1 := {| cache := _ |}).
    assert (Hs1 : shape l c1 s1).
    { unfold shape, s1; cbn. repeat split; auto; unfold c1; lia. }
    unfold get. change (cache D s1) with (window l c1 (next_seq_idx D s)).
    change (next_seq_idx D s1) with (next_seq_idx D s).
    destruct (Nat.lt_ge_cases i (next_seq_idx D s)) as [Hlt|Hge].
    - assert (Ec1 : c1 = i) by (unfold c1; lia).
      destruct (nth_error_lt l i) as (d&Hnd); [lia|].
      rewrite Ec1. rewrite (window_cons l i (next_seq_idx D s) d) by auto. cbn [fst].
      destruct (Nat.ltb_spec i i); [lia|]. cbn [bind].
      rewrite <- (window_cons l i (next_seq_idx D s) d) by auto.
      unfold get_from_cache. destruct (rev_window_last l i (next_seq_idx D s)) as (d'&rest&_&->); [auto|auto|].
      cbn [fst]. destruct (Nat.ltb_spec (next_seq_idx D s - 1) i); [lia|].
      rewrite (window_cons l i (next_seq_idx D s) d) by auto. cbn [find_in_cache fst].
      destruct (Nat.leb_spec i i); [|lia]. cbn [assert_ bind]. rewrite Nat.eqb_refl. cbn [bind].
      exists s1. rewrite Hnd. split; [reflexivity|]. exists c1. split; [exact Hs1|]. split; [lia|].
      intros j Hj1 Hj2 Hj3. change (next_seq_idx D s1) with (next_seq_idx D s). lia.
    - assert (Ec1 : c1 = next_seq_idx D s) by (unfold c1; lia).
      rewrite Ec1, window_nil. cbn [bind get_from_cache rev].
      destruct (Nat.ltb_spec i (length l)) as [Hil|Hil].
      + destruct (Nat.leb_spec (next_seq_idx D s) i); [|lia]. cbn [assert_ bind].
        specialize (Hj i Hi (Hhi Hil) Hil).
        rewrite Ec1 in Hs1.
        destruct (get_loop_ok l i (next_seq_idx D s) (S bs) s1 Hs1) as (s'&->&Hs'&Hn'); try lia.
        * exact Hge.
        * change (next_seq_idx D s1) with (next_seq_idx D s). lia.
        * cbn [bind]. exists s'. split; [reflexivity|]. exists (next_seq_idx D s).
          split; [exact Hs'|]. split; [lia|]. intros; lia.
      + cbn [bind]. exists s1. rewrite (proj2 (nth_error_None l i)) by lia. split; [reflexivity|].
        exists c1. split; [exact Hs1|]. split; [lia|]. intros; lia.
  Qed.

  Definition wst_ok (st : option (list D * nat * nat)) (s : wst) : Prop :=
    match st with None => ds D s = None | Some (l, lo, hi) => reach l lo hi s end.
  Definition cur_of (st : option (list D * nat * nat)) : list D :=
    match st with None => [] | Some (l, _, _) => l end.

  Lemma reach_init l : reach l 0 bs {| cache := []; next_seq_idx := 0; ds := Some l |}.
  Proof.
    exists 0. split; [|split; [lia|cbn; intros; lia]]. unfold shape; cbn [cache next_seq_idx ds].
    split; [reflexivity|]. split; [symmetry; apply window_nil|lia].
  Qed.

  Lemma worker_ok ms : forall st s,
    wst_ok st s -> admissible bs st (map snd ms) ->
    exists s', worker D bs ms s = Ok (s', expected_replies (cur_of st) (map snd ms)).
  Proof.
    induction ms as [|[k m] ms IH]; intros st s Hst Hadm; cbn [worker map snd expected_replies admissible] in *; [eauto|].
    destruct m as [l|i|]; cbn [admissible expected_replies] in *.
    - cbn [handle bind]. destruct (IH (Some (l, 0, bs)) {| cache := []; next_seq_idx := 0; ds := Some l |}) as (s'&E).
      + apply reach_init.
      + exact Hadm.
      + rewrite E. cbn. eauto.
    - destruct st as [[[l lo] hi]|]; [|destruct Hadm]. destruct Hadm as (Hlo&Hhi&Hadm). cbn [wst_ok cur_of] in *.
      destruct (handle_get_ok l lo hi i (prefetch D bs k s)) as (s1&->&Hs1); auto.
      { now apply prefetch_reach. }
      cbn [bind]. destruct (IH (Some (l, i, i + 1 + bs)) s1 Hs1 Hadm) as (s'&->). cbn. eauto.
    - cbn [handle bind]. destruct (IH None (w_init D)) as (s'&->); [reflexivity|exact Hadm|]. cbn. eauto.
  Qed.

  Lemma worker_from_start ms :
    admissible bs None (map snd ms) ->
    exists s', worker D bs ms (w_init D) = Ok (s', expected_replies [] (map snd ms)).
  Proof. apply (worker_ok ms None). reflexivity. Qed.

  (** memory bound, for all message sequences *)
  Lemma add_to_cache_bound l s b s' : length (cache D s) <= bs -> add_to_cache D bs l s = (b, s') -> length (cache D s') <= bs.
  Proof.
    unfold add_to_cache. intros H E. destruct (Nat.leb_spec bs (length (cache D s))); [injection E as <- <-; auto|].
    destruct (nth_error l (next_seq_idx D s)); injection E as <- <-; [cbn; rewrite app_length; cbn; lia|auto].
  Qed.
  Lemma prefetch_bound k : forall s, length (cache D s) <= bs -> length (cache D (prefetch D bs k s)) <= bs.
  Proof.
    induction k as [|k IH]; intros s H; cbn; [auto|]. destruct (ds D s) as [l|]; [|auto].
    destruct (add_to_cache D bs l s) as [[] s'] eqn:E; [|auto]. apply IH. eapply add_to_cache_bound; eauto.
  Qed.
  Lemma pop_older_length c i : length (pop_older D c i) <= length c.
  Proof. induction c as [|x c IH]; cbn [pop_older length]; [lia|]. destruct (fst x <? i); cbn [length]; [lia|]. lia. Qed.
  Lemma get_loop_bound l i fuel : forall s s' r, length (cache D s) <= bs ->
    get_loop D bs fuel l i s = Ok (s', r) -> length (cache D s') <= bs.
  Proof.
    induction fuel as [|fuel IH]; intros s s' r H E; [discriminate|]. cbn [get_loop] in E.
    destruct (add_to_cache D bs l s) as [[] s1] eqn:Ea; [|discriminate].
    apply add_to_cache_bound in Ea; [|exact H].
    destruct (rev (cache D s1)) as [|lst rest]; [discriminate|].
    apply bind_Ok in E as (u&_&E). destruct (fst lst =? i); [apply Ok_inj in E; injection E as <- <-; exact Ea|eauto].
  Qed.
  Lemma handle_bound m s s' r : length (cache D s) <= bs -> handle D bs m s = Ok (s', r) -> length (cache D s') <= bs.
  Proof.
    intros H E. destruct m as [l|i|]; cbn [handle] in E.
    - apply Ok_inj in E. injection E as <- <-. cbn. lia.
    - destruct (ds D s) as [l|]; [|discriminate]. apply bind_Ok in E as ([s1 x]&Eg&E).
      apply Ok_inj in E. injection E as <- <-. unfold get in Eg.
      apply bind_Ok in Eg as (u&_&Eg). apply bind_Ok in Eg as (r&_&Eg).
      cbn [cache] in Eg. pose proof (pop_older_length (cache D s) i) as Hp.
      destruct r as [y|]; [apply Ok_inj in Eg; injection Eg as <- <-; cbn; lia|].
      destruct (i <? length l); [|apply Ok_inj in Eg; injection Eg as <- <-; cbn; lia].
      apply bind_Ok in Eg as (v&_&Eg). eapply get_loop_bound; [|exact Eg]. cbn. lia.
    - apply Ok_inj in E. injection E as <- <-. cbn. lia.
  Qed.
  Lemma worker_bound ms : forall s s' r, length (cache D s) <= bs -> worker D bs ms s = Ok (s', r) ->
    length (cache D s') <= bs.
  Proof.
    induction ms as [|[k m] ms IH]; intros s s' r H E; cbn [worker] in E.
    - apply Ok_inj in E. injection E as <- <-. exact H.
    - apply bind_Ok in E as ([s1 r1]&E1&E). apply bind_Ok in E as ([s2 r2]&E2&E).
      apply Ok_inj in E. injection E as <- <-. eapply IH; [|exact E2].
      eapply handle_bound; [|exact E1]. now apply prefetch_bound.
  Qed.

  (** going backwards fails *)
  Lemma handle_next l c0 i s :
    shape l c0 s -> c0 <= i <= next_seq_idx D s -> i < length l -> 0 < bs ->
    exists s' r, handle D bs (MGet D i) s = Ok (s', r) /\ shape l i s' /\ i < next_seq_idx D s'.
  Proof.
    intros Hs Hi Hil Hbs. pose proof Hs as (Hd&Hc&H1&H2&H3).
    cbn [handle]. rewrite Hd, Hc, pop_older_window by auto.
    replace (max c0 (min i (next_seq_idx D s))) with i by lia.
    set (s1 := {| cache := _ |}).
    assert (Hs1 : shape l i s1) by (unfold shape, s1; cbn; repeat split; auto; lia).
    unfold get. change (cache D s1) with (window l i (next_seq_idx D s)).
    change (next_seq_idx D s1) with (next_seq_idx D s).
    destruct (nth_error_lt l i Hil) as (d&Hnd).
    destruct (Nat.eq_dec i (next_seq_idx D s)) as [E|E].
    - rewrite <- E, window_nil. cbn [bind get_from_cache rev].
      destruct (Nat.ltb_spec i (length l)); [|lia]. destruct (Nat.leb_spec i i); [|lia]. cbn [assert_ bind].
      destruct (get_loop_ok l i i (S bs) s1 Hs1) as (s'&->&Hs'&Hn'); try lia.
      { change (next_seq_idx D s1) with (next_seq_idx D s). lia. }
      { change (next_seq_idx D s1) with (next_seq_idx D s). lia. }
      cbn [bind]. eexists _, _. split; [reflexivity|]. split; [exact Hs'|lia].
    - rewrite (window_cons l i (next_seq_idx D s) d) by (auto; lia). cbn [fst].
      destruct (Nat.ltb_spec i i); [lia|]. cbn [bind].
      rewrite <- (window_cons l i (next_seq_idx D s) d) by (auto; lia).
      unfold get_from_cache. destruct (rev_window_last l i (next_seq_idx D s)) as (d'&rest&_&->); [lia|auto|].
      cbn [fst]. destruct (Nat.ltb_spec (next_seq_idx D s - 1) i); [lia|].
      rewrite (window_cons l i (next_seq_idx D s) d) by (auto; lia). cbn [find_in_cache fst].
      destruct (Nat.leb_spec i i); [|lia]. cbn [assert_ bind]. rewrite Nat.eqb_refl. cbn [bind].
      eexists _, _. split; [reflexivity|]. split; [exact Hs1|]. change (next_seq_idx D s1) with (next_seq_idx D s). lia.
  Qed.

  Lemma handle_back l i j s :
    shape l i s -> i < next_seq_idx D s -> j < i -> handle D bs (MGet D j) s = Err OtherException.
  Proof.
    intros Hs Hi Hj. pose proof Hs as (Hd&Hc&H1&H2&H3).
    cbn [handle]. rewrite Hd, Hc, pop_older_window by auto.
    replace (max i (min j (next_seq_idx D s))) with i by lia.
    destruct (nth_error_lt l i) as (d&Hnd); [lia|].
    unfold get. cbn [cache]. rewrite (window_cons l i (next_seq_idx D s) d) by auto. cbn [fst].
    destruct (Nat.ltb_spec j i); [reflexivity|lia].
  Qed.

  Lemma worker_in_order l ks : forall i s c0,
    shape l c0 s -> c0 <= i <= next_seq_idx D s -> (forall m, m < length ks -> i + m < length l) -> 0 < bs -> 0 < length ks ->
    exists s' r, worker D bs (combine ks (map (MGet D) (seq i (length ks)))) s = Ok (s', r)
      /\ shape l (i + length ks - 1) s' /\ i + length ks - 1 < next_seq_idx D s'.
  Proof.
    induction ks as [|k ks IH]; intros i s c0 Hs Hi Hl Hb Hk; [cbn in Hk; lia|].
    cbn [length seq map combine worker] in *.
    destruct (prefetch_shape l c0 k s Hs) as [Hp Hn].
    destruct (handle_next l c0 i (prefetch D bs k s)) as (s1&r1&->&Hs1&Hn1); auto; [lia|specialize (Hl 0); lia|].
    cbn [bind]. destruct ks as [|k2 ks].
    - cbn. exists s1. eexists. split; [reflexivity|]. replace (i + 1 - 1) with i by lia. auto.
    - destruct (IH (S i) s1 i Hs1) as (s2&r2&E&H2); [lia| |exact Hb|cbn; lia|].
      { intros m Hm. assert (i + S m < length l) by (apply Hl; lia). lia. }
      rewrite E. cbn [bind]. exists s2. eexists. split; [reflexivity|].
      replace (i + S (length (k2 :: ks)) - 1) with (S i + length (k2 :: ks) - 1) by lia. exact H2.
  Qed.

  Lemma worker_app ms1 ms2 s :
    worker D bs (ms1 ++ ms2) s
    = let* (s1, r1) := worker D bs ms1 s in let* (s2, r2) := worker D bs ms2 s1 in Ok (s2, r1 ++ r2).
  Proof.
    revert s. induction ms1 as [|[k m] ms1 IH]; intros s; cbn [worker app bind].
    - destruct (worker D bs ms2 s) as [[s2 r2]|]; reflexivity.
    - destruct (handle D bs m (prefetch D bs k s)) as [[s1 r1]|]; cbn [bind]; [|reflexivity].
      rewrite IH. destruct (worker D bs ms1 s1) as [[s2 r2]|]; cbn [bind]; [|reflexivity].
      destruct (worker D bs ms2 s2) as [[s3 r3]|]; cbn [bind]; [|reflexivity]. now rewrite app_assoc.
  Qed.

  Lemma reread_fails l ks k0 k1 j :
    0 < bs -> length ks <= length l -> S j < length ks ->
    worker D bs ((k0, MInit D l) :: combine ks (map (MGet D) (seq 0 (length ks))) ++ [(k1, MGet D j)]) (w_init D)
    = Err OtherException.
  Proof.
    intros Hb Hl Hj. cbn [worker handle bind]. rewrite worker_app.
    destruct (worker_in_order l ks 0 {| cache := []; next_seq_idx := 0; ds := Some l |} 0) as (s1&r1&->&Hs1&Hn1); [ |cbn; lia|intros; lia|exact Hb|lia|].
    { destruct (reach_init l) as (c0&H&Hc&_). now replace c0 with 0 in H by lia. }
    cbn [bind worker]. destruct (prefetch_shape l _ k1 s1 Hs1) as [Hp Hn].
    rewrite (handle_back l (0 + length ks - 1) j); [reflexivity|exact Hp|lia|lia].
  Qed.
End W.

(** * MultiProc *)
Lemma nth_error_pystride {A} (l : list A) w W j : 0 < W -> w < W ->
  nth_error (pystride l w W) j = nth_error l (w + j * W).
Proof.
  intros HW Hw. unfold pystride.
  assert (H : forall a l j, nth_error (flat_map (fun ix : nat * A => if (w <=? fst ix) && ((fst ix - w) mod W =? 0) then [snd ix] else [])
       (combine (seq a (length l)) l)) j
     = if a <=? w then nth_error l (w - a + j * W) else nth_error l ((W - (a - w) mod W) mod W + j * W)).
  { clear l j. intros a l. revert a. induction l as [|x l IH]; intros a j; cbn [length seq combine flat_map].
    - now destruct (a <=? w), j; rewrite ?nth_error_nil; destruct (_ + _).
    - cbn [fst snd]. destruct (Nat.leb_spec w a) as [H1|H1]; cbn [andb].
      + destruct (Nat.eqb_spec ((a - w) mod W) 0) as [H2|H2].
        * assert (Hmod : (S a - w) mod W = 1 mod W).
          { replace (S a - w) with (a - w + 1) by lia. rewrite Nat.add_mod, H2 by lia. cbn [Nat.add].
            apply Nat.mod_mod. lia. }
          destruct j as [|j]; cbn [app nth_error].
          -- destruct (Nat.leb_spec a w); [now replace (w - a + 0 * W) with 0 by lia|].
             rewrite H2, Nat.sub_0_r, Nat.mod_same by lia. reflexivity.
          -- rewrite IH. destruct (Nat.leb_spec (S a) w); [lia|].
             assert (E : (W - (S a - w) mod W) mod W + j * W = W - 1 + j * W).
             { rewrite Hmod. destruct (Nat.eq_dec W 1) as [->|]; [reflexivity|].
               rewrite (Nat.mod_small 1) by lia. rewrite Nat.mod_small by lia. reflexivity. }
             rewrite E. destruct (Nat.leb_spec a w).
             ++ replace a with w by lia. rewrite Nat.sub_diag. replace (0 + S j * W) with (S (W - 1 + j * W)) by lia. reflexivity.
             ++ rewrite H2, Nat.sub_0_r, Nat.mod_same by lia. replace (0 + S j * W) with (S (W - 1 + j * W)) by lia. reflexivity.
        * cbn [app]. rewrite IH. destruct (Nat.leb_spec (S a) w); [lia|].
          destruct (Nat.leb_spec a w); [exfalso; replace (a - w) with 0 in H2 by lia; rewrite Nat.mod_0_l in H2; lia|].
          pose proof (Nat.mod_upper_bound (a - w) W).
          assert (Hm : (S a - w) mod W = (S ((a - w) mod W)) mod W).
          { replace (S a - w) with (a - w + 1) by lia. replace (S ((a - w) mod W)) with ((a - w) mod W + 1) by lia.
            rewrite Nat.add_mod_idemp_l by lia. reflexivity. }
          rewrite (Nat.mod_small (W - (a - w) mod W)) by lia.
          replace (W - (a - w) mod W + j * W) with (S (W - (a - w) mod W - 1 + j * W)) by lia. cbn [nth_error]. f_equal. f_equal.
          rewrite Hm. destruct (Nat.eq_dec (S ((a - w) mod W)) W) as [E|E].
          -- rewrite E, Nat.mod_same, Nat.sub_0_r, Nat.mod_same by lia. lia.
          -- rewrite (Nat.mod_small (S _)) by lia. rewrite Nat.mod_small by lia. lia.
      + cbn [app]. rewrite IH. destruct (Nat.leb_spec (S a) w); [|lia]. destruct (Nat.leb_spec a w); [|lia].
        replace (w - a + j * W) with (S (w - S a + j * W)) by lia. reflexivity. }
  rewrite H. destruct (Nat.leb_spec 0 w); [|lia]. now rewrite Nat.sub_0_r.
Qed.

Lemma seq_order_shards_nth {A} (order : list A) W i : 0 < W ->
  nth_error (nth (i mod W) (seq_order_shards W order) []) (i / W) = nth_error order i.
Proof.
  intros HW. pose proof (Nat.mod_upper_bound i W ltac:(lia)) as Hm. unfold seq_order_shards.
  rewrite (nth_indep _ [] (pystride order 0 W)) by (rewrite map_length, seq_length; auto).
  rewrite (map_nth (fun w => pystride order w W)). rewrite seq_nth by auto. cbn [Nat.add].
  rewrite nth_error_pystride by auto. f_equal. pose proof (Nat.div_mod_eq i W). lia.
Qed.

Section MP.
  Context {D : Type}.
  Variable bs : nat.
  Hypothesis Hbs : 0 < bs.
  Notation C := (D * option Z)%type.

  Lemma set_nth_length {A} (l : list A) i x : length (set_nth l i x) = length l.
  Proof. revert i; induction l; intros [|i]; cbn; auto. Qed.
  Lemma nth_error_set_nth {A} (l : list A) i j x :
    nth_error (set_nth l i x) j = if i =? j then (match nth_error l j with Some _ => Some x | None => None end) else nth_error l j.
  Proof.
    revert i j; induction l as [|y l IH]; intros [|i] [|j]; cbn; auto.
    now destruct (i =? j).
  Qed.

  (** after the parent has read the sequences 0 .. i-1, worker w has been asked for ceil((i - w) / W) ones *)
  Definition asked (W i w : nat) : nat := (i + W - 1 - w) / W.

  Definition minv (shards : list (list C)) (i : nat) (m : mstate D) : Prop :=
    length (wstates D m) = length shards /\ forall w s, nth_error (wstates D m) w = Some s ->
      exists l, nth_error shards w = Some l /\ exists lo, lo <= asked (length shards) i w
        /\ asked (length shards) i w <= lo + 1 /\ reach bs l lo (asked (length shards) i w + bs) s.

  Lemma prefetch_all_inv shards i sched m :
    minv shards i m ->
    minv shards i {| wstates := prefetch_all D bs sched (wstates D m); cur_max_complete_frac := cur_max_complete_frac D m |}.
  Proof.
    intros [Hl Hw]. unfold minv, prefetch_all. cbn [wstates]. split.
    - rewrite map_length, combine_len. exact Hl.
    - intros w s H. rewrite nth_error_map, combine_nth_error in H.
      destruct (nth_error (wstates D m) w) as [s0|] eqn:E; [|discriminate]. cbn in H. injection H as <-.
      destruct (Hw w s0 E) as (l&El&lo&H1&H2&H3). exists l. split; [exact El|]. exists lo.
      split; [exact H1|]. split; [exact H2|]. now apply prefetch_reach.
  Qed.

  Lemma asked_same W i : 0 < W -> asked W i (i mod W) = i / W.
  Proof.
    intros HW. unfold asked. pose proof (Nat.mod_upper_bound i W ltac:(lia)).
    pose proof (Nat.div_mod_eq i W) as Hd.
    replace (i + W - 1 - i mod W) with (W - 1 + (i / W) * W) by lia.
    rewrite Nat.div_add by lia. rewrite Nat.div_small by lia. lia.
  Qed.
  Lemma asked_next W i w : 0 < W -> w < W -> asked W (S i) w = if i mod W =? w then S (asked W i w) else asked W i w.
  Proof.
    intros HW Hw. pose proof (Nat.mod_upper_bound i W ltac:(lia)). pose proof (Nat.div_mod_eq i W) as Hd.
    destruct (Nat.eqb_spec (i mod W) w) as [<-|Hne].
    - rewrite asked_same by auto. unfold asked.
      replace (S i + W - 1 - i mod W) with (0 + (S (i / W)) * W) by (cbn; lia). rewrite Nat.div_add by lia. now rewrite Nat.div_0_l by lia.
    - unfold asked. remember (i / W) as q. remember (i mod W) as r. clear Heqq Heqr. subst i.
      rewrite (Nat.mul_comm W q). destruct (Nat.lt_ge_cases r w).
      + replace (S (q * W + r) + W - 1 - w) with (W + r - w + q * W) by lia.
        replace (q * W + r + W - 1 - w) with (W + r - 1 - w + q * W) by lia.
        rewrite !Nat.div_add by lia. rewrite !Nat.div_small by lia. lia.
      + replace (S (q * W + r) + W - 1 - w) with (r - w + (S q) * W) by (cbn; lia).
        replace (q * W + r + W - 1 - w) with (r - w - 1 + (S q) * W) by (cbn; lia).
        rewrite !Nat.div_add by lia. rewrite !Nat.div_small by lia. lia.
  Qed.

  Lemma collect_ok shards i m :
    0 < length shards -> Forall (Forall (fun c : C => snd c <> None)) shards -> minv shards i m ->
    exists m' x, collect_single_seq D bs i m = Ok (m', x) /\ minv shards (S i) m'
      /\ no_frac x = option_map (fun c => (i, fst c)) (nth_error (nth (i mod length shards) shards []) (i / length shards))
      /\ (cur_max_complete_frac D m <= cur_max_complete_frac D m')%Z
      /\ fracs [x] = match x with None => [] | Some _ => [cur_max_complete_frac D m'] end.
  Proof.
    intros HW Hfr [Hl Hw]. set (W := length shards) in *. unfold collect_single_seq. rewrite Hl. fold W.
    destruct (Nat.eqb_spec W 0); [lia|].
    pose proof (Nat.mod_upper_bound i W ltac:(lia)) as Hm.
    unfold pyget. destruct (nth_error (wstates D m) (i mod W)) as [s|] eqn:Es.
    2:{ apply nth_error_None in Es. lia. }
    cbn [bind]. destruct (Hw _ _ Es) as (l&El&lo&H1&H2&H3).
    fold W in H1, H2, H3. rewrite asked_same in H1, H2, H3 by auto.
    destruct (handle_get_ok bs l lo (i / W + bs) (i / W) s H3) as (s'&->&Hs'); [lia|lia|]. cbn [bind].
    assert (Hnth : nth (i mod W) shards [] = l) by (apply nth_error_nth with (d := []) in El; exact El).
    rewrite Hnth.
    assert (Hinv : forall f, minv shards (S i) {| wstates := set_nth (wstates D m) (i mod W) s'; cur_max_complete_frac := f |}).
    { intros f. split; cbn [wstates]; [now rewrite set_nth_length|].
      intros w s1 H. rewrite nth_error_set_nth in H. fold W.
      assert (Hww : w < W).
      { destruct (nth_error (wstates D m) w) eqn:E2; [assert (nth_error (wstates D m) w <> None) as E3 by congruence; apply nth_error_Some in E3; lia|].
        destruct (i mod W =? w); discriminate. }
      rewrite asked_next by auto.
      destruct (Nat.eqb_spec (i mod W) w) as [<-|Hne].
      - rewrite Es in H. injection H as <-. exists l. split; [exact El|]. exists (i / W).
        rewrite asked_same by auto. repeat split; try lia.
        replace (S (i / W) + bs) with (i / W + 1 + bs) by lia. exact Hs'.
      - destruct (Hw _ _ H) as (l1&E1&lo1&H4&H5&H6). exists l1. split; [exact E1|]. exists lo1. auto. }
    destruct (nth_error l (i / W)) as [[d fr]|] eqn:En; cbn [option_map].
    - destruct fr as [f|].
      2:{ exfalso. rewrite Forall_forall in Hfr. apply nth_error_In in El. specialize (Hfr _ El).
          rewrite Forall_forall in Hfr. apply nth_error_In in En. specialize (Hfr _ En). now apply Hfr. }
      eexists _, _. split; [reflexivity|]. split; [apply Hinv|]. cbn. repeat split. lia.
    - eexists _, _. split; [reflexivity|]. split; [apply Hinv|]. cbn. repeat split. lia.
  Qed.

  Lemma mp_read_ok shards scheds : forall i m,
    0 < length shards -> Forall (Forall (fun c : C => snd c <> None)) shards -> minv shards i m ->
    exists m' out, mp_read D bs (combine scheds (seq i (length scheds))) m = Ok (m', out)
      /\ map no_frac out = map (fun i => option_map (fun c => (i, fst c))
            (nth_error (nth (i mod length shards) shards []) (i / length shards))) (seq i (length scheds))
      /\ StronglySorted Z.le (fracs out) /\ Forall (fun f => cur_max_complete_frac D m <= f)%Z (fracs out).
  Proof.
    induction scheds as [|sched scheds IH]; intros i m HW Hfr Hm; cbn [length seq combine mp_read].
    - exists m, []. cbn. repeat split; constructor.
    - apply (prefetch_all_inv shards i sched) in Hm.
      destruct (collect_ok shards i _ HW Hfr Hm) as (m1&x&->&Hm1&Hx&Hmono&Hf). cbn [bind].
      destruct (IH (S i) m1 HW Hfr Hm1) as (m2&out&->&Hout&Hs&Hge). cbn [bind].
      exists m2, (x :: out). split; [reflexivity|]. split; [cbn [map]; now rewrite Hx, Hout|].
      cbn [cur_max_complete_frac] in Hmono.
      change (fracs (x :: out)) with (fracs ([x] ++ out)). unfold fracs. rewrite flat_map_app. fold (fracs [x]). fold (fracs out).
      rewrite Hf. destruct x as [y|]; cbn [app].
      + split; [constructor; [exact Hs|exact Hge]|]. constructor; [exact Hmono|].
        eapply Forall_impl; [|exact Hge]. cbn. intros; lia.
      + split; [exact Hs|]. eapply Forall_impl; [|exact Hge]. cbn. intros; lia.
  Qed.

  Lemma minv_init shards m : 0 < length shards -> minv shards 0 (mp_init D shards m).
  Proof.
    intros HW. unfold minv, mp_init. cbn [wstates]. rewrite map_length. split; [reflexivity|].
    intros w s H. rewrite nth_error_map in H. destruct (nth_error shards w) as [l|] eqn:E; [|discriminate].
    cbn in H. injection H as <-. exists l. split; [reflexivity|]. exists 0.
    assert (asked (length shards) 0 w = 0) as ->.
    { unfold asked. apply Nat.div_small. lia. }
    repeat split; try lia. apply reach_init.
  Qed.

  Lemma mp_epoch shards scheds m :
    0 < length shards -> Forall (Forall (fun c : C => snd c <> None)) shards ->
    exists m' out, mp_read D bs (combine scheds (seq 0 (length scheds))) (mp_init D shards m) = Ok (m', out)
      /\ map no_frac out = map (fun i => option_map (fun c => (i, fst c))
            (nth_error (nth (i mod length shards) shards []) (i / length shards))) (seq 0 (length scheds))
      /\ StronglySorted Z.le (fracs out).
  Proof.
    intros HW Hfr. destruct (mp_read_ok shards scheds 0 (mp_init D shards m) HW Hfr (minv_init shards m HW))
      as (m'&out&H1&H2&H3&_). eauto.
  Qed.
End MP.

(** * Round robin over contiguous shards *)
Lemma round_robin_pairs W q r : r < W ->
  Permutation (map (fun i => (i mod W, i / W)) (seq 0 (q * W + r)))
    (flat_map (fun w => map (pair w) (seq 0 (q + (if w <? r then 1 else 0)))) (seq 0 W)).
Proof.
  intros Hr. apply NoDup_Permutation.
  - apply NoDup_map_inj; [|apply seq_NoDup]. intros x y _ _ [= H1 H2].
    rewrite (Nat.div_mod_eq x W), (Nat.div_mod_eq y W). congruence.
  - assert (H : forall a n, NoDup (flat_map (fun w => map (pair w) (seq 0 (q + (if w <? r then 1 else 0)))) (seq a n))).
    { intros a n. revert a. induction n as [|n IH]; intros a; cbn [seq flat_map]; [constructor|].
      assert (Hnd : NoDup (map (pair a) (seq 0 (q + (if a <? r then 1 else 0))))).
      { apply NoDup_map_inj; [|apply seq_NoDup]. intros x y _ _ [= H]. exact H. }
      revert Hnd. generalize (seq 0 (q + (if a <? r then 1 else 0))) as L. induction L as [|x L IHL]; intros Hnd; cbn [map app]; [apply IH|].
      inversion Hnd as [|? ? Hx HL]; subst. constructor; [|apply IHL; exact HL].
      rewrite in_app_iff. intros [H|H]; [contradiction|].
      apply in_flat_map in H as (w&Hw&H). apply in_seq in Hw. apply in_map_iff in H as (z&[= -> _]&_). lia. }
    apply H.
  - intros [w j]. rewrite in_map_iff, in_flat_map. split.
    + intros (i&[= <- <-]&Hi). apply in_seq in Hi. exists (i mod W).
      pose proof (Nat.mod_upper_bound i W ltac:(lia)). split; [apply in_seq; lia|].
      apply in_map. apply in_seq. split; [apply Nat.le_0_l|]. rewrite Nat.add_0_l.
      pose proof (Nat.div_mod_eq i W) as Hd. revert H Hd. generalize (i / W) as a, (i mod W) as b. intros a b H Hd.
      destruct (Nat.ltb_spec b r); nia.
    + intros (w'&Hw&H). apply in_map_iff in H as (j'&[= -> ->]&Hj). apply in_seq in Hw, Hj.
      exists (w + j * W). split.
      * rewrite Nat.mod_add, Nat.div_add by lia. rewrite Nat.mod_small, Nat.div_small by lia. reflexivity.
      * apply in_seq. destruct (Nat.ltb_spec w r); nia.
Qed.

Definition opt_list {A} (x : option A) : list A := match x with Some a => [a] | None => [] end.
Lemma flat_map_nth_error {A} (l : list A) : flat_map (fun j => opt_list (nth_error l j)) (seq 0 (length l)) = l.
Proof.
  induction l as [|x l IH]; [reflexivity|]. cbn [length seq flat_map nth_error opt_list app]. f_equal.
  rewrite <- seq_shift, flat_map_concat_map, map_map, <- flat_map_concat_map. exact IH.
Qed.
Lemma flat_map_map' {A B C} (f : A -> B) (g : B -> list C) l : flat_map g (map f l) = flat_map (fun x => g (f x)) l.
Proof. induction l; cbn; congruence. Qed.
Lemma flat_map_flat_map' {A B C} (f : A -> list B) (g : B -> list C) l :
  flat_map g (flat_map f l) = flat_map (fun x => flat_map g (f x)) l.
Proof. induction l; cbn; [reflexivity|]. now rewrite flat_map_app, IHl. Qed.

Lemma round_robin {A} (shards : list (list A)) q r :
  r < length shards ->
  (forall w l, nth_error shards w = Some l -> length l = q + (if w <? r then 1 else 0)) ->
  Permutation
    (flat_map (fun i => opt_list (nth_error (nth (i mod length shards) shards []) (i / length shards)))
              (seq 0 (length (concat shards)))) (concat shards).
Proof.
  intros Hr Hlen. set (W := length shards) in *.
  assert (Hn : length (concat shards) = q * W + r).
  { assert (H : forall a (ss : list (list A)),
      (forall w l, nth_error ss w = Some l -> length l = q + (if a + w <? r then 1 else 0)) ->
      length (concat ss) = q * length ss + min (length ss) (r - a)).
    { intros a ss. revert a. induction ss as [|s ss IH]; intros a H; [cbn; lia|]. cbn [concat length].
      rewrite app_length, (IH (S a)).
      - pose proof (H 0 s eq_refl) as H0. rewrite H0, Nat.add_0_r. destruct (Nat.ltb_spec a r); lia.
      - intros w l E. rewrite (H (S w) l E). now rewrite Nat.add_succ_r. }
    rewrite (H 0 shards) by exact Hlen. fold W. lia. }
  rewrite Hn.
  transitivity (flat_map (fun p => opt_list (nth_error (nth (fst p) shards []) (snd p)))
                  (map (fun i => (i mod W, i / W)) (seq 0 (q * W + r)))).
  { now rewrite flat_map_map'. }
  rewrite round_robin_pairs by exact Hr. rewrite flat_map_flat_map'.
  rewrite (flat_map_concat_map _ (seq 0 W)).
  replace (map _ (seq 0 W)) with shards; [reflexivity|].
  apply nth_ext with (d := []) (d' := []); [now rewrite map_length, seq_length|].
  intros w Hw. fold W in Hw.
  erewrite (nth_indep (map _ (seq 0 W))) by (now rewrite map_length, seq_length).
  rewrite (map_nth (fun w => flat_map _ (map (pair w) _)) (seq 0 W) 0 w).
  rewrite seq_nth by auto. cbn [Nat.add]. rewrite flat_map_map'. cbn [fst snd].
  assert (E : nth_error shards w = Some (nth w shards [])) by (apply nth_error_nth'; exact Hw).
  rewrite <- (Hlen _ _ E). symmetry. apply flat_map_nth_error.
Qed.

Lemma part_bound_step n np c : part_bound n np (S c) - part_bound n np c = n / np + (if c <? n mod np then 1 else 0).
Proof.
  unfold part_bound. generalize (n / np) as q, (n mod np) as r. intros q r. cbn [Nat.mul].
  destruct (Nat.ltb_spec c r); lia.
Qed.

(** the shards of one sub epoch have sizes that never grow and differ by at most one *)
Lemma dedicated_sizes {A} (l : list A) P e W pieces :
  0 < P -> 0 < W ->
  mapM (fun w => apply_partition_epoch_and_sharding l P (Some e) W w) (seq 0 W) = Ok pieces ->
  length pieces = W /\ exists q r, r < W
    /\ forall w p, nth_error pieces w = Some p -> length p = q + (if w <? r then 1 else 0).
Proof.
  intros HP HW H. apply mapM_Ok_Forall2 in H.
  assert (Hlen : length pieces = W) by (apply Forall2_len in H; now rewrite seq_length in H).
  split; [exact Hlen|].
  set (base := ((epoch_or_1 (Some e) - 1) mod P) * W).
  set (np := P * W). set (n := length l).
  assert (Hp : forall w p, nth_error pieces w = Some p -> length p = n / np + (if base + w <? n mod np then 1 else 0)).
  { intros w p E. assert (Hw : w < W) by (rewrite <- Hlen; apply nth_error_Some; congruence).
    pose proof (Forall2_nth _ _ _ _ _ _ H (nth_error_seq 0 W w Hw) E) as Hf. cbn in Hf.
    destruct (apply_partition_ok l P (Some e) W w HP Hw) as [Hc Ha]. rewrite Ha in Hf. apply Ok_inj in Hf. subst p.
    fold base np n. rewrite pyslice_length, Nat.add_1_r; [apply part_bound_step|].
    apply part_bound_le_n; [unfold np; nia|]. fold base np in Hc. lia. }
  destruct (Nat.le_gt_cases (base + W) (n mod np)) as [H1|H1].
  - exists (n / np + 1), 0. split; [exact HW|]. intros w p E.
    assert (Hw : w < W) by (rewrite <- Hlen; apply nth_error_Some; congruence).
    rewrite (Hp w p E). destruct (Nat.ltb_spec (base + w) (n mod np)); cbn; lia.
  - exists (n / np), (n mod np - base). split; [lia|]. intros w p E. rewrite (Hp w p E).
    destruct (Nat.ltb_spec (base + w) (n mod np)), (Nat.ltb_spec w (n mod np - base)); lia.
Qed.

Lemma round_robin_all {A} (shards : list (list A)) q r :
  r < length shards ->
  (forall w l, nth_error shards w = Some l -> length l = q + (if w <? r then 1 else 0)) ->
  Permutation
    (map (fun i => nth_error (nth (i mod length shards) shards []) (i / length shards)) (seq 0 (length (concat shards))))
    (map Some (concat shards)).
Proof.
  intros Hr Hlen. pose proof (round_robin shards q r Hr Hlen) as HP.
  set (f := fun i => nth_error (nth (i mod length shards) shards []) (i / length shards)) in *.
  assert (H : map f (seq 0 (length (concat shards))) = map Some (flat_map (fun i => opt_list (f i)) (seq 0 (length (concat shards))))).
  { apply Permutation_length in HP.
    assert (HL : length (flat_map (fun i => opt_list (f i)) (seq 0 (length (concat shards))))
                 = length (seq 0 (length (concat shards)))) by (rewrite seq_length; exact HP).
    revert HL. generalize (seq 0 (length (concat shards))) as L. intros L. clearbody f. clear. intros HL.
    assert (Hle : forall L, length (flat_map (fun i => opt_list (f i)) L) <= length L).
    { induction L0 as [|x L0 IH]; cbn [flat_map length]; [lia|]. rewrite app_length. destruct (f x); cbn [opt_list length]; lia. }
    induction L as [|x L IH]; [reflexivity|]. cbn in *. rewrite app_length in HL. specialize (Hle L).
    destruct (f x) as [a|]; cbn in *; [|lia]. f_equal. apply IH. lia. }
  rewrite H. now apply Permutation_map.
Qed.

Lemma mp_dedicated {D} bs (l : list (D * option Z)) P e W pieces scheds m :
  0 < bs -> 0 < P -> 0 < W -> Forall (fun c => snd c <> None) l ->
  mapM (fun w => apply_partition_epoch_and_sharding l P (Some e) W w) (seq 0 W) = Ok pieces ->
  length scheds = length (concat pieces) ->
  exists m' out, mp_read D bs (combine scheds (seq 0 (length scheds))) (mp_init D pieces m) = Ok (m', out)
    /\ Permutation (map (option_map snd) (map no_frac out)) (map (fun c => Some (fst c)) (concat pieces))
    /\ StronglySorted Z.le (fracs out).
Proof.
  intros Hbs HP HW Hfr Hp Hs. destruct (dedicated_sizes l P e W pieces HP HW Hp) as (Hlen&q&r&Hr&Hsz).
  assert (Hfr' : Forall (Forall (fun c : D * option Z => snd c <> None)) pieces).
  { apply mapM_Ok_Forall2 in Hp. apply Forall_forall. intros p Hin. apply In_nth_error in Hin as (w&E).
    assert (Hw : w < W) by (rewrite <- Hlen; apply nth_error_Some; congruence).
    pose proof (Forall2_nth _ _ _ _ _ _ Hp (nth_error_seq 0 W w Hw) E) as Hf. cbn in Hf.
    destruct (apply_partition_ok l P (Some e) W w HP Hw) as [Hc Ha]. rewrite Ha in Hf. apply Ok_inj in Hf. subst p.
    apply Forall_forall. intros x Hx. rewrite Forall_forall in Hfr. apply Hfr.
    eapply In_pyslice. exact Hx. }
  destruct (mp_epoch bs Hbs pieces scheds m) as (m'&out&E&Ho&Hsrt); [lia|exact Hfr'|].
  exists m', out. split; [exact E|]. split; [|exact Hsrt]. rewrite Ho, Hs.
  pose proof (round_robin_all pieces q r ltac:(lia) Hsz) as HPm.
  apply (Permutation_map (option_map fst)) in HPm. rewrite !map_map in HPm. rewrite !map_map.
  etransitivity; [|etransitivity; [exact HPm|]].
  - apply Permutation_eq. apply map_ext. intros i. now destruct (nth_error _ _).
  - apply Permutation_eq. apply map_ext. reflexivity.
Qed.

Lemma mp_seq_order {D} bs (order : list (D * option Z)) W scheds m :
  0 < bs -> 0 < W -> Forall (fun c => snd c <> None) order ->
  exists m' out, mp_read D bs (combine scheds (seq 0 (length scheds))) (mp_init D (seq_order_shards W order) m) = Ok (m', out)
    /\ map no_frac out = map (fun i => option_map (fun c => (i, fst c)) (nth_error order i)) (seq 0 (length scheds))
    /\ StronglySorted Z.le (fracs out).
Proof.
  intros Hbs HW Hfr.
  assert (Hlen : length (seq_order_shards W order) = W) by (unfold seq_order_shards; now rewrite map_length, seq_length).
  destruct (mp_epoch bs Hbs (seq_order_shards W order) scheds m) as (m'&out&E&Ho&Hs).
  - lia.
  - apply Forall_forall. intros l Hl. apply Forall_forall. intros c Hc.
    apply in_map_iff in Hl as (w&<-&Hw). unfold pystride in Hc. apply in_flat_map in Hc as ([i x]&Hix&Hx).
    apply in_combine_r in Hix. rewrite Forall_forall in Hfr.
    destruct (_ && _); [|destruct Hx]. destruct Hx as [<-|[]]. now apply Hfr.
  - exists m', out. split; [exact E|]. split; [|exact Hs]. rewrite Ho, Hlen. apply map_ext. intros i.
    now rewrite seq_order_shards_nth.
Qed.

Lemma unknown_frac_fails {D} (d : D) bs W order m :
  0 < bs -> 0 < W -> nth_error order 0 = Some (d, None) ->
  mp_read D bs [(fun _ => 0, 0)] (mp_init D (seq_order_shards W order) m) = Err TypeError.
Proof.
  intros Hbs HW H0.
  assert (Hlen : length (seq_order_shards W order) = W) by (unfold seq_order_shards; now rewrite map_length, seq_length).
  destruct W as [|W]; [lia|].
  assert (E : exists r rest, seq_order_shards (S W) order = ((d, None) :: r) :: rest).
  { pose proof (seq_order_shards_nth order (S W) 0 HW) as Hn. rewrite H0 in Hn.
    rewrite Nat.mod_0_l, Nat.div_0_l in Hn by lia.
    destruct (seq_order_shards (S W) order) as [|s0 rest]; [discriminate|]. cbn in Hn.
    destruct s0; [discriminate|]. cbn in Hn. injection Hn as ->. eauto. }
  destruct E as (r&rest&E). rewrite E in *. cbn [mp_read].
  unfold collect_single_seq, prefetch_all, mp_init. cbn [wstates map].
  rewrite !map_length, combine_len. rewrite Nat.mod_0_l, Nat.div_0_l by (cbn; lia). cbn [length].
  destruct (Nat.eqb_spec (S (length (map (fun l => {| cache := []; next_seq_idx := 0; ds := Some l |}) rest))) 0); [lia|].
  cbn. destruct bs as [|bs]; [lia|]. reflexivity.
Qed.
