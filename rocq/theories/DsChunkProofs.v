From Coq Require Import String.
From Verif Require Import Base ListLemmas DsChunkModel DsChunkSpec.
Local Open Scope nat_scope. Local Open Scope list_scope. Local Open Scope Z_scope.
Local Notation length := List.length.

Section F.
Variables (d : string) (len step minc : string -> Z).
Lemma full_keys_In ks full : full_keys d len step minc ks = Ok full -> forall k, In k full -> In k ks /\ len k <= 1 /\ ~ (step k = step d /\ len k = len d).
Proof.
  revert full. induction ks as [|k ks IH]; intros full H k' Hin; cbn [full_keys] in H.
  - apply Ok_inj in H. subst. destruct Hin.
  - destruct ((step k =? step d) && (len k =? len d)) eqn:E0; [destruct (IH _ H k' Hin); split; [now right|assumption]|].
    destruct (Z.leb_spec (len k) 1).
    + apply bind_Ok in H. destruct H as (r&Hr&H). apply Ok_inj in H. subst full. destruct Hin as [<-|Hin]; [|destruct (IH _ Hr k' Hin); split; [now right|assumption]].
      split; [now left|]. split; [assumption|]. intros [E1 E2]. rewrite E1, E2, !Z.eqb_refl in E0. discriminate.
    + destruct (step k =? step d); [discriminate|]. destruct (step k =? 0); [discriminate|]. apply bind_Ok in H. destruct H as (?&_&H). destruct (IH _ H k' Hin). split; [now right|assumption].
Qed.
Lemma full_keys_check ks full : full_keys d len step minc ks = Ok full -> (forall k, In k ks -> 0 < step k) -> forall k, In k ks -> ~ In k full -> (step k = step d /\ len k = len d) \/ (1 < len k /\ (len k - (if minc k =? 0 then 1 else minc k)) / step k = (len d - (if minc d =? 0 then 1 else minc d)) / step d).
Proof.
  revert full. induction ks as [|k ks IH]; intros full H Hp k' Hin Hn; [destruct Hin|]. cbn [full_keys] in H.
  assert (Hp' : forall k, In k ks -> 0 < step k) by (intros; apply Hp; now right).
  destruct ((step k =? step d) && (len k =? len d)) eqn:E0.
  - destruct Hin as [<-|Hin]; [|now apply (IH full)]. left. apply andb_true_iff in E0. destruct E0 as [E1 E2]. apply Z.eqb_eq in E1, E2. now split.
  - destruct (Z.leb_spec (len k) 1).
    + apply bind_Ok in H. destruct H as (r&Hr&H). apply Ok_inj in H. subst full. destruct Hin as [<-|Hin]; [exfalso; apply Hn; now left|]. apply (IH r); auto. intros Hr'. apply Hn. now right.
    + destruct (step k =? step d); [discriminate|]. destruct (step k =? 0); [discriminate|]. apply bind_Ok in H. destruct H as ([]&Ha&H). apply assert_Ok, Z.eqb_eq in Ha. destruct Hin as [<-|Hin]; [|now apply (IH full)]. right. split; [assumption|]. lia.
Qed.
End F.

Section P.
Variables (K : list string) (d : string) (len size step minc : string -> Z).
Hypothesis HdK : In d K.
Hypothesis Hstep : 0 < step d.
(** chunk number [j] is not the last one *)
Definition goes_on (j : Z) : Prop := forall k, In k K -> minc k < len k - (j + 1) * step k.
Lemma chunks_from_spec full fuel : forall i, 0 <= i -> (Z.to_nat (len d - i) <= fuel)%nat -> 0 <= minc d ->
  exists n, chunks_from K d len size step minc fuel full i = Ok (map (fun j => chunk_at K len size step full (i + Z.of_nat j)) (seq 0 n)) /\
    (n = 0%nat <-> len d <= i * step d) /\ (forall j, (S j < n)%nat -> goes_on (i + Z.of_nat j)) /\ ((0 < n)%nat -> ~ goes_on (i + Z.of_nat (n - 1))).
Proof.
  induction fuel as [|fuel IH]; intros i Hi Hf Hm; cbn [chunks_from]; rewrite Z.gtb_ltb.
  - destruct (Z.ltb_spec (i * step d) (len d)); [nia|]. exists 0%nat. split; [reflexivity|]. split; [split; auto|]. split; intros; lia.
  - destruct (Z.ltb_spec (i * step d) (len d)) as [Hlt|Hge].
    2:{ exists 0%nat. split; [reflexivity|]. split; [split; auto|]. split; intros; lia. }
    destruct (existsb (fun k => len k - (i + 1) * step k <=? minc k) K) eqn:E.
    + exists 1%nat. split; [cbn; now rewrite Z.add_0_r|]. split; [split; [discriminate|lia]|]. split; [intros; lia|]. intros _ Hg. apply existsb_exists in E. destruct E as (k&Hk&E). apply Z.leb_le in E. specialize (Hg k Hk). cbn in Hg. rewrite Z.add_0_r in Hg. lia.
    + assert (Hg : goes_on i). { intros k Hk. destruct (Z.leb_spec (len k - (i + 1) * step k) (minc k)) as [Hle|Hlt']; [|lia]. enough (existsb (fun k => len k - (i + 1) * step k <=? minc k) K = true) by congruence. apply existsb_exists. exists k. split; [exact Hk|]. now apply Z.leb_le. }
      destruct (IH (i + 1)) as (n&->&N1&N2&N3); [lia|lia|exact Hm|]. cbn [bind]. exists (S n). split; [|split; [|split]].
      * cbn [seq map]. rewrite Z.add_0_r. f_equal. f_equal. rewrite <- seq_shift, map_map. apply map_ext. intros j. f_equal. lia.
      * split; [discriminate|lia].
      * intros [|j] Hj; [now rewrite Z.add_0_r|]. replace (i + Z.of_nat (S j)) with (i + 1 + Z.of_nat j) by lia. apply N2. lia.
      * intros _. destruct n as [|n]; [|replace (i + Z.of_nat (S (S n) - 1)) with (i + 1 + Z.of_nat (S n - 1)) by lia; apply N3; lia].
        exfalso. destruct N1 as [N1 _]. specialize (N1 eq_refl). specialize (Hg d HdK). lia.
Qed.
Lemma iterate_spec cs : 0 <= minc d -> iterate_seq K d len size step minc = Ok cs -> exists full n, full_keys d len step minc K = Ok full /\
  cs = map (fun j => chunk_at K len size step full (Z.of_nat j)) (seq 0 n) /\ (n = 0%nat <-> len d <= 0) /\ (forall j, (S j < n)%nat -> goes_on (Z.of_nat j)) /\ ((0 < n)%nat -> ~ goes_on (Z.of_nat (n - 1))).
Proof.
  intros Hm H. unfold iterate_seq in H. apply bind_Ok in H. destruct H as (?&_&H). apply bind_Ok in H. destruct H as (full&Hf&H). destruct (chunks_from_spec full (Z.to_nat (len d)) 0) as (n&Hn&N1&N2&N3); [lia|lia|exact Hm|].
  rewrite Hn in H. apply Ok_inj in H. exists full, n. split; [exact Hf|]. split; [now symmetry|]. split; [rewrite N1; lia|]. split; assumption.
Qed.
End P.
Section Q.
Variables (K : list string) (len size step minc : string -> Z).
Lemma not_goes_on j : ~ goes_on K len step minc j -> exists k, In k K /\ len k - (j + 1) * step k <= minc k.
Proof.
  intros H. unfold goes_on in H. assert (Hd : {Exists (fun k => len k - (j + 1) * step k <= minc k) K} + {~ Exists (fun k => len k - (j + 1) * step k <= minc k) K}) by (apply Exists_dec; intros; apply Z_le_dec).
  destruct Hd as [Hd|Hd]; [now apply Exists_exists in Hd|]. exfalso. apply H. intros k Hk. destruct (Z_le_dec (len k - (j + 1) * step k) (minc k)) as [Hl|]; [|lia]. exfalso. apply Hd, Exists_exists. now exists k.
Qed.
Lemma in_chunk_at full k t : In k K -> ~ In k full -> 0 < step k <= size k -> 0 <= t < len k -> in_chunk (chunk_at K len size step full (t / step k)) k t.
Proof.
  intros Hk Hn Hs Ht. exists (t / step k * step k), (Z.min (t / step k * step k + size k) (len k)). split.
  - unfold chunk_at. apply in_map_iff. exists k. split; [|exact Hk]. f_equal. destruct (existsb (String.eqb k) full) eqn:E; [|reflexivity]. apply existsb_exists in E. destruct E as (k'&Hk'&E). apply String.eqb_eq in E. subst. contradiction.
  - pose proof (Z.div_mod t (step k)). pose proof (Z.mod_pos_bound t (step k)). nia.
Qed.
Lemma covered_by full n k t : In k K -> ~ In k full -> 0 < step k <= size k -> 0 <= t < len k -> t < Z.of_nat n * step k ->
  exists c, In c (map (fun j => chunk_at K len size step full (Z.of_nat j)) (seq 0 n)) /\ in_chunk c k t.
Proof.
  intros Hk Hn Hs Ht Hl. exists (chunk_at K len size step full (t / step k)). split; [|now apply in_chunk_at]. assert (H0 : 0 <= t / step k) by (apply Z.div_pos; lia). assert (H1 : t / step k < Z.of_nat n) by (apply Z.div_lt_upper_bound; lia).
  apply in_map_iff. exists (Z.to_nat (t / step k)). split; [now rewrite Z2Nat.id|]. apply in_seq. lia.
Qed.
End Q.
Lemma covered K d len size step minc full n : In d K -> (forall k, In k K -> 0 < step k <= size k /\ minc k = 0 /\ (1 < len k \/ step k = step d /\ len k = len d)) -> full_keys d len step minc K = Ok full ->
  (n = 0%nat <-> len d <= 0) -> ((0 < n)%nat -> ~ goes_on K len step minc (Z.of_nat (n - 1))) -> forall k t, In k K -> 0 <= t < len k ->
  exists c, In c (map (fun j => chunk_at K len size step full (Z.of_nat j)) (seq 0 n)) /\ in_chunk c k t.
Proof.
  intros Hd Hk Hf N1 N3 k t Hin Ht. assert (Hnf : forall k, In k K -> ~ In k full).
  { intros k' Hk' Hi. destruct (full_keys_In d len step minc K full Hf k' Hi) as (_&Hl&Hne). destruct (Hk k' Hk') as (_&_&[H|H]); [lia|tauto]. }
  assert (Hq : forall k, In k K -> (len k - 1) / step k = (len d - 1) / step d).
  { intros k' Hk'. destruct (full_keys_check d len step minc K full Hf) with (k := k') as [[E1 E2]|[_ E]]; [intros; now apply Hk|exact Hk'|now apply Hnf|now rewrite E1, E2|].
    destruct (Hk k' Hk') as (_&E1&_). destruct (Hk d Hd) as (_&E2&_). rewrite E1, E2 in E. exact E. }
  destruct (Hk k Hin) as (Hs&_&_). apply covered_by; auto. destruct (Hk d Hd) as (Hsd&_&_).
  assert (Hq0 : 0 <= (len k - 1) / step k) by (apply Z.div_pos; lia). rewrite (Hq k Hin) in Hq0.
  destruct n as [|n]; [destruct N1 as [N1 _]; specialize (N1 eq_refl); assert ((len d - 1) / step d < 0) by (apply Z.div_lt_upper_bound; lia); lia|].
  destruct (not_goes_on K len size step minc _ (N3 (Nat.lt_0_succ n))) as (k0&Hk0&Hl). destruct (Hk k0 Hk0) as (Hs0&Hm0&_). rewrite Hm0 in Hl. replace (Z.of_nat (S n - 1) + 1) with (Z.of_nat (S n)) in Hl by lia.
  assert (Hlt : (len k0 - 1) / step k0 < Z.of_nat (S n)) by (apply Z.div_lt_upper_bound; nia). rewrite (Hq k0 Hk0), <- (Hq k Hin) in Hlt.
  pose proof (Z.div_mod (len k - 1) (step k)). pose proof (Z.mod_pos_bound (len k - 1) (step k)). nia.
Qed.
Lemma full_keys_same d len step minc K : (forall k, In k K -> step k = step d /\ len k = len d) -> full_keys d len step minc K = Ok [].
Proof. induction K as [|k K IH]; intros H; [reflexivity|]. cbn [full_keys]. destruct (H k (or_introl eq_refl)) as [-> ->]. rewrite !Z.eqb_refl. cbn [andb]. apply IH. intros k' Hk. apply H. now right. Qed.
Lemma same_lengths K d len size step minc :
  In d K -> (forall k, In k K -> 0 < step k <= size k /\ 0 <= minc k /\ step k = step d /\ len k = len d) ->
  exists cs, iterate_seq K d len size step minc = Ok cs /\
    (forall j c, nth_error cs j = Some c -> c = map (fun k => (k, (Z.of_nat j * step d, Z.min (Z.of_nat j * step d + size k) (len d)))) K) /\
    (forall k t, In k K -> 0 <= t < len d -> (exists c, In c cs /\ in_chunk c k t) \/ exists k', In k' K /\ len d - t <= minc k').
Proof.
  intros Hd Hk. destruct (Hk d Hd) as (Hsd&Hmd&_). unfold iterate_seq. destruct Hsd as [Hsd _]. pose proof Hsd as Hsd'. apply Z.ltb_lt in Hsd' as ->. cbn [assert_ bind]. rewrite full_keys_same by (intros k Hi; now apply Hk). cbn [bind].
  destruct (chunks_from_spec K d len size step minc Hd Hsd [] (Z.to_nat (len d)) 0) as (n&->&N1&_&N3); [lia|lia|exact Hmd|]. eexists. split; [reflexivity|]. split.
  - intros j c Hj. rewrite nth_error_map in Hj. destruct (nth_error (seq 0 n) j) as [x|] eqn:E; [|discriminate]. assert (Hlt : (j < n)%nat) by (rewrite <- (seq_length n 0); apply nth_error_Some; congruence). rewrite nth_error_seq in E by exact Hlt. injection E as <-. injection Hj as <-. unfold chunk_at. cbn [existsb]. apply map_ext_in. intros k Hi. destruct (Hk k Hi) as (_&_&E1&E2). now rewrite E1, E2.
  - intros k t Hi Ht. destruct (Hk k Hi) as (Hs&_&E1&E2). destruct (Z_lt_dec t (Z.of_nat n * step d)) as [Hlt|Hge].
    + left. destruct (covered_by K len size step minc [] n k t Hi) as (c&Hc&Hin); [intros []|exact Hs|lia|rewrite E1; lia|]. exists c. split; [|exact Hin]. exact Hc.
    + right. destruct n as [|n]; [destruct N1 as [N1 _]; specialize (N1 eq_refl); lia|]. destruct (not_goes_on K len size step minc _ (N3 (Nat.lt_0_succ n))) as (k0&Hk0&Hl). exists k0. split; [exact Hk0|]. destruct (Hk k0 Hk0) as (_&_&F1&F2). rewrite F1, F2 in Hl. nia.
Qed.

Lemma chunk_positions K d len size step minc cs :
  In d K -> 0 < step d -> 0 <= minc d -> (forall k, In k K -> 1 < len k \/ step k = step d /\ len k = len d) ->
  iterate_seq K d len size step minc = Ok cs ->
  forall j c, nth_error cs j = Some c -> c = map (fun k => (k, (Z.of_nat j * step k, Z.min (Z.of_nat j * step k + size k) (len k)))) K.
Proof.
  intros Hd Hs Hm Hk H j c Hc. destruct (iterate_spec K d len size step minc Hd Hs cs Hm H) as (full&n&Hf&->&_).
  assert (Hj : (j < n)%nat) by (rewrite <- (seq_length n 0), <- (map_length (fun j => chunk_at K len size step full (Z.of_nat j))); apply nth_error_Some; rewrite Hc; discriminate).
  rewrite nth_error_map, nth_error_seq in Hc by exact Hj. cbn in Hc. injection Hc as <-. unfold chunk_at. apply map_ext_in. intros k Hin. f_equal.
  destruct (existsb (String.eqb k) full) eqn:E; [|reflexivity]. apply existsb_exists in E. destruct E as (k'&Hk'&E). apply String.eqb_eq in E. subst k'.
  destruct (full_keys_In _ _ _ _ _ _ Hf k Hk') as (_&H1&H2). destruct (Hk k Hin); [lia|contradiction].
Qed.
