From Verif Require Import Base ListLemmas FrameModel.
Local Open Scope Z_scope.

Lemma pread_spec n s : (0 < n)%nat -> exists k, (1 <= k <= n)%nat /\ fst (pread n s) = firstn k (rest s) /\ rest (snd (pread n s)) = skipn k (rest s).
Proof. intros Hn. unfold pread. eexists. split; [|split; reflexivity]. destruct (pieces s); lia. Qed.

Lemma read_bytes_spec fuel need s : (need <= fuel)%nat ->
  match read_bytes fuel need s with
  | Ok (d, s') => (need <= length (rest s))%nat /\ d = firstn need (rest s) /\ rest s' = skipn need (rest s)
  | Err e => (length (rest s) < need)%nat /\ e = EOFError
  end.
Proof.
  revert need s. induction fuel as [|fuel IH]; intros need s Hf; destruct need as [|need]; try (cbn; split; [lia|split; reflexivity]); [lia|].
  cbn [read_bytes]. destruct (pread_spec (S need) s) as (k&Hk&H1&H2); [lia|]. destruct (pread (S need) s) as [d s1]. cbn [fst snd] in H1, H2.
  destruct d as [|x d'] eqn:Ed.
  - assert (Hz : length (firstn k (rest s)) = 0%nat) by (rewrite <- H1; reflexivity). rewrite firstn_length in Hz. split; [lia|reflexivity].
  - rewrite <- Ed in *. assert (Hd : (1 <= length d)%nat) by (subst d; cbn; lia). assert (Hlen : length d = Nat.min k (length (rest s))) by (rewrite H1; apply firstn_length).
    specialize (IH (S need - length d)%nat s1 ltac:(lia)). destruct (read_bytes fuel (S need - length d) s1) as [[r s2]|e]; cbn [bind fst snd].
    + destruct IH as (A&B&C). rewrite H2 in A, B, C. rewrite skipn_length in A. assert (Hkl : (k <= length (rest s))%nat) by lia. assert (length d = k) by lia.
      split; [lia|]. split.
      * rewrite B, H, H1. rewrite <- (firstn_skipn k (firstn (S need) (rest s))). rewrite firstn_firstn. replace (Nat.min k (S need)) with k by lia. f_equal. rewrite firstn_skipn_comm. f_equal. f_equal. lia.
      * rewrite C. rewrite skipn_skipn'. f_equal. lia.
    + destruct IH as (A&B). rewrite H2, skipn_length in A. split; [lia|exact B].
Qed.

Lemma pack_unpack n : 0 <= n < 2 ^ 31 -> exists b, pack_i n = Ok b /\ length b = 4%nat /\ unpack_i b = Ok n.
Proof.
  intros Hn. unfold pack_i. assert (E1 : (- 2 ^ 31 <=? n) = true) by (apply Z.leb_le; lia). assert (E2 : (n <? 2 ^ 31) = true) by (apply Z.ltb_lt; lia). rewrite E1, E2. cbn [andb].
  eexists. split; [reflexivity|]. split; [reflexivity|]. cbn [unpack_i].
  assert (E : n mod 256 + 256 * ((n / 256) mod 256) + 65536 * ((n / 65536) mod 256) + 16777216 * ((n / 16777216) mod 256) = n).
  { assert (A : n = 256 * (n / 256) + n mod 256) by (apply Z.div_mod; lia).
    assert (B : n / 256 = 256 * (n / 65536) + (n / 256) mod 256) by (replace 65536 with (256 * 256) by lia; rewrite <- Z.div_div by lia; apply Z.div_mod; lia).
    assert (C : n / 65536 = 256 * (n / 16777216) + (n / 65536) mod 256) by (replace 16777216 with (65536 * 256) by lia; rewrite <- Z.div_div by lia; apply Z.div_mod; lia).
    assert (D : (n / 16777216) mod 256 = n / 16777216). { apply Z.mod_small. split; [apply Z.div_pos; lia|]. apply Z.div_lt_upper_bound; lia. }
    lia. }
  rewrite E, E2. reflexivity.
Qed.

Section P.
Context {Obj : Type} (dumps : Obj -> list Z) (loads : list Z -> option Obj).
Hypothesis Hpickle : forall o, loads (dumps o) = Some o.

Lemma write_Ok o b : write_pickled dumps o = Ok b -> exists size, b = (size ++ dumps o)%list /\ length size = 4%nat /\ unpack_i size = Ok (Z.of_nat (length (dumps o))) /\ (0 < length (dumps o))%nat.
Proof.
  unfold write_pickled. intros H. apply bind_Ok in H. destruct H as ([]&Ha&H). apply assert_Ok, Z.ltb_lt in Ha. apply bind_Ok in H. destruct H as (size&Hs&H). apply Ok_inj in H.
  assert (Hr : 0 <= Z.of_nat (length (dumps o)) < 2 ^ 31). { unfold pack_i in Hs. destruct ((- 2 ^ 31 <=? _) && (_ <? 2 ^ 31)) eqn:E; [|discriminate]. apply andb_true_iff in E. destruct E as [_ E]. apply Z.ltb_lt in E. lia. }
  destruct (pack_unpack _ Hr) as (b'&H1&H2&H3). rewrite Hs in H1. apply Ok_inj in H1. subst b'. exists size. split; [now symmetry|]. split; [exact H2|]. split; [exact H3|lia].
Qed.

Lemma firstn_app_l {A} n (l l' : list A) : length l = n -> firstn n (l ++ l') = l.
Proof. intros <-. rewrite firstn_app, Nat.sub_diag, firstn_all. cbn. apply app_nil_r. Qed.
Lemma skipn_app_l {A} n (l l' : list A) : length l = n -> skipn n (l ++ l') = l'.
Proof. intros <-. rewrite skipn_app, Nat.sub_diag, skipn_all. reflexivity. Qed.

(** A complete frame is read; an incomplete one gives EOF. *)
Lemma read_frame o b more s : write_pickled dumps o = Ok b -> rest s = (b ++ more)%list -> exists s', read_pickled loads s = Ok (o, s') /\ rest s' = more.
Proof.
  intros Hw Hr. destruct (write_Ok _ _ Hw) as (size&->&H4&Hu&Hpos). unfold read_pickled. rewrite <- app_assoc in Hr.
  pose proof (read_bytes_spec 4 4 s ltac:(lia)) as H. destruct (read_bytes 4 4 s) as [[d s1]|e]; [|exfalso; rewrite Hr, app_length in H; lia]. destruct H as (_&Hd&Hs1). rewrite Hr in Hd, Hs1.
  rewrite firstn_app_l in Hd by exact H4. rewrite skipn_app_l in Hs1 by exact H4. cbn [bind fst snd]. rewrite Hd, Hu. cbn [bind]. unfold assert_. assert (E : (0 <? Z.of_nat (length (dumps o))) = true) by (apply Z.ltb_lt; lia). rewrite E. cbn [bind]. rewrite Nat2Z.id.
  pose proof (read_bytes_spec (length (dumps o)) (length (dumps o)) s1 ltac:(lia)) as H. destruct (read_bytes _ _ s1) as [[d2 s2]|e]; [|exfalso; rewrite Hs1, app_length in H; lia]. destruct H as (_&Hd2&Hs2). rewrite Hs1 in Hd2, Hs2.
  rewrite firstn_app_l in Hd2 by reflexivity. rewrite skipn_app_l in Hs2 by reflexivity. cbn [bind fst snd]. rewrite Hd2, Hpickle. eauto.
Qed.
Lemma read_incomplete o b k s : write_pickled dumps o = Ok b -> (k < length b)%nat -> rest s = firstn k b -> read_pickled loads s = Err EOFError.
Proof.
  intros Hw Hk Hr. destruct (write_Ok _ _ Hw) as (size&->&H4&Hu&Hpos). unfold read_pickled. rewrite app_length in Hk.
  pose proof (read_bytes_spec 4 4 s ltac:(lia)) as H. destruct (read_bytes 4 4 s) as [[d s1]|e]; [|destruct H as [_ ->]; reflexivity]. destruct H as (Hl&Hd&Hs1). rewrite Hr in Hl, Hd, Hs1. rewrite firstn_length, app_length in Hl.
  rewrite firstn_firstn, Nat.min_l in Hd by lia. rewrite firstn_app_l in Hd by exact H4. cbn [bind fst snd]. rewrite Hd, Hu. cbn [bind]. unfold assert_. assert (E : (0 <? Z.of_nat (length (dumps o))) = true) by (apply Z.ltb_lt; lia). rewrite E. cbn [bind]. rewrite Nat2Z.id.
  pose proof (read_bytes_spec (length (dumps o)) (length (dumps o)) s1 ltac:(lia)) as H. destruct (read_bytes _ _ s1) as [[d2 s2]|e]; [|destruct H as [_ ->]; reflexivity].
  exfalso. destruct H as (H&_). rewrite Hs1, skipn_length, firstn_length, app_length in H. lia.
Qed.
Lemma read_empty s : rest s = [] -> read_pickled loads s = Err EOFError.
Proof. intros Hr. unfold read_pickled. pose proof (read_bytes_spec 4 4 s ltac:(lia)) as H. destruct (read_bytes 4 4 s) as [[d s1]|e]; [rewrite Hr in H; cbn in H; lia|destruct H as [_ ->]; reflexivity]. Qed.

Lemma read_all_prefix os b n k s : write_all dumps os = Ok b -> (length os < n)%nat -> rest s = firstn k b ->
  exists j bj, read_all loads n s = (firstn j os, EOFError) /\ (j <= length os)%nat /\
    write_all dumps (firstn j os) = Ok bj /\ (length bj <= Nat.min k (length b))%nat /\
    (forall j' bj', (j < j' <= length os)%nat -> write_all dumps (firstn j' os) = Ok bj' -> (k < length bj')%nat).
Proof.
  revert b n k s. induction os as [|o os IH]; intros b n k s Hw Hn Hr.
  - cbn in Hw. apply Ok_inj in Hw. subst b. rewrite firstn_nil in Hr. destruct n as [|n]; [lia|]. exists O, []. cbn [read_all]. rewrite (read_empty s Hr). cbn. split; [reflexivity|]. split; [lia|]. split; [reflexivity|]. split; [lia|]. intros; lia.
  - cbn [write_all] in Hw. apply bind_Ok in Hw. destruct Hw as (a&Ha&Hw). apply bind_Ok in Hw. destruct Hw as (b'&Hb&Hw). apply Ok_inj in Hw. subst b. destruct n as [|n]; [lia|]. cbn [read_all].
    destruct (Nat.lt_ge_cases k (length a)) as [Hk|Hk].
    + rewrite (read_incomplete o a k s Ha Hk); [|rewrite Hr, firstn_app; replace (k - length a)%nat with O by lia; cbn; apply app_nil_r].
      exists O, []. cbn [firstn write_all]. split; [reflexivity|]. split; [lia|]. split; [reflexivity|]. split; [cbn; lia|]. intros j' bj' Hj Hw. destruct j' as [|j']; [lia|]. cbn [firstn write_all] in Hw. rewrite Ha in Hw. cbn [bind] in Hw. apply bind_Ok in Hw. destruct Hw as (c&_&Hw). apply Ok_inj in Hw. subst bj'. rewrite app_length. lia.
    + destruct (read_frame o a (firstn (k - length a) b') s Ha) as (s'&H1&H2); [rewrite Hr, firstn_app, (firstn_all2 a) by lia; reflexivity|]. rewrite H1.
      destruct (IH b' n (k - length a)%nat s' Hb) as (j&bj&H3&H4&H5&H6&H7); [cbn in Hn; lia|exact H2|]. rewrite H3. exists (S j), (a ++ bj)%list. cbn [firstn write_all]. split; [reflexivity|]. split; [cbn; lia|]. split; [rewrite Ha; cbn [bind]; rewrite H5; reflexivity|]. split; [rewrite !app_length; lia|].
      intros j' bj' Hj Hw'. destruct j' as [|j']; [lia|]. cbn [firstn write_all length] in Hw', Hj. rewrite Ha in Hw'. cbn [bind] in Hw'. apply bind_Ok in Hw'. destruct Hw' as (c&Hc&Hw'). apply Ok_inj in Hw'. subst bj'. specialize (H7 j' c ltac:(lia) Hc). rewrite app_length. lia.
Qed.
End P.
