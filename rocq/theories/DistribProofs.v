(** Proofs for C05. *)
From Verif Require Import Base ListLemmas SeqOrderModel SeqOrderSpec DistribModel DistribSpec.
From Coq Require Import String.
Local Open Scope nat_scope.
Local Notation length := List.length.
Local Notation concat := List.concat.

Lemma bin_append_at {A} (pre : list (list A)) cur post x :
  bin_append (pre ++ cur :: post) (length pre) x = Ok (pre ++ (cur ++ [x]) :: post).
Proof. induction pre as [|p pre IH]; cbn; [reflexivity|]. now rewrite IH. Qed.

Lemma pyget_app_at {A} (pre : list A) x post : pyget (pre ++ x :: post) (length pre) = Ok x.
Proof. unfold pyget. rewrite nth_error_app2, Nat.sub_diag by lia. reflexivity. Qed.

Lemma nonempty_app {A} (l : list A) x : nonempty (l ++ [x]) = true.
Proof. destruct l; reflexivity. Qed.

Ltac len := repeat (rewrite ?app_length in *; cbn [List.length app] in * ); lia.

Section Dist.
  Variable FL : float_api.
  Variable F : Type.
  Variable size_of : F -> Z.

  (** invariant of the loop after the files [done], with [r] files remaining *)
  Definition dinv (B : nat) (done : list F) (r : nat) (s : dstate FL F) : Prop :=
    exists pre cur post,
      files_per_bin FL F s = pre ++ cur :: post /\ length pre = bin_idx FL F s
      /\ Forall (fun b => nonempty b = true) pre
      /\ length (pre ++ cur :: post) = B
      /\ Forall (fun b => b = []) post
      /\ concat (pre ++ [cur]) = done
      /\ B <= r + length pre + (if nonempty cur then 1 else 0).

  Lemma dist_step_inv B n total i f s done r :
    n - i = S r -> dinv B done (S r) s ->
    exists s', dist_step FL F size_of B n total i f s = Ok s' /\ dinv B (done ++ [f]) r s'.
  Proof.
    intros Hn (pre&cur&post&Hb&Hp&Hne&HB&Hpost&Hc&Hr).
    unfold dist_step. rewrite Hn, Hb, <- Hp, pyget_app_at. cbn [bind].
    pose proof HB as HB'. rewrite app_length in HB'. cbn [List.length] in HB'.
    rewrite concat_app in Hc. cbn in Hc. rewrite app_nil_r in Hc. subst done.
    destruct (Nat.leb_spec (S r + length pre + 1) B) as [H1|H1].
    - (* fill up *)
      destruct (nonempty cur) eqn:Ecur; [|lia]. cbn [assert_ bind].
      unfold pydiv. destruct (Nat.eqb_spec (B - (length pre + 1)) 0); [lia|]. cbn [bind].
      destruct post as [|p post]; [cbn in HB'; lia|].
      inversion Hpost as [|? ? -> Hpost'].
      replace (pre ++ cur :: [] :: post) with ((pre ++ [cur]) ++ [] :: post) by now rewrite <- app_assoc.
      replace (length pre + 1) with (length (pre ++ [cur])) by (rewrite app_length; cbn; lia).
      rewrite bin_append_at. cbn [bind]. eexists. split; [reflexivity|].
      exists (pre ++ [cur]), [f], post. cbn.
      split; [reflexivity|]. split; [reflexivity|].
      split; [apply Forall_app; auto|]. split; [rewrite <- app_assoc; cbn; len|].
      split; [exact Hpost'|]. split.
      + rewrite !concat_app. cbn. now rewrite !app_nil_r.
      + rewrite app_length in *. cbn in *. lia.
    - destruct (Nat.eqb_spec (length pre + 1) B) as [H2|H2].
      + rewrite bin_append_at. cbn [bind]. eexists. split; [reflexivity|].
        exists pre, (cur ++ [f]), post. cbn.
        split; [reflexivity|]. split; [reflexivity|]. split; [exact Hne|].
        split; [rewrite app_length; cbn; lia|]. split; [exact Hpost|]. split.
        * rewrite concat_app. cbn. now rewrite app_nil_r, app_assoc.
        * rewrite nonempty_app. lia.
      + destruct (f_le FL _ _).
        * rewrite bin_append_at. cbn [bind]. eexists. split; [reflexivity|].
          exists pre, (cur ++ [f]), post. cbn.
          split; [reflexivity|]. split; [reflexivity|]. split; [exact Hne|].
          split; [rewrite app_length; cbn; lia|]. split; [exact Hpost|]. split.
          -- rewrite concat_app. cbn. now rewrite app_nil_r, app_assoc.
          -- rewrite nonempty_app. lia.
        * assert (Hlt : length pre + 1 < B) by (cbn in HB'; lia).
          destruct post as [|p post]; [cbn in HB'; lia|].
          inversion Hpost as [|? ? -> Hpost'].
          destruct (negb (nonempty cur) || f_closer FL _ _ _) eqn:Ehere.
          -- rewrite bin_append_at. cbn [bind]. unfold pydiv.
             destruct (Nat.eqb_spec (B - (length pre + 1)) 0); [lia|].
             cbn [bind]. eexists. split; [reflexivity|].
             exists (pre ++ [cur ++ [f]]), [], post. cbn.
             split; [now rewrite <- app_assoc|]. split; [rewrite app_length; reflexivity|].
             split; [apply Forall_app; split; [exact Hne|constructor; [apply nonempty_app|constructor]]|].
             split; [len|]. split; [exact Hpost'|]. split.
             ++ rewrite !concat_app. cbn. rewrite !app_nil_r. now rewrite app_assoc.
             ++ cbn [nonempty] in *. len.
          -- apply orb_false_iff in Ehere as [Ecur _]. apply negb_false_iff in Ecur.
             replace (pre ++ cur :: [] :: post) with ((pre ++ [cur]) ++ [] :: post) by now rewrite <- app_assoc.
             replace (length pre + 1) with (length (pre ++ [cur])) by (rewrite app_length; cbn; lia).
             rewrite bin_append_at. cbn [bind]. unfold pydiv.
             destruct (Nat.eqb_spec (B - length (pre ++ [cur])) 0);
               [len|].
             cbn [bind]. eexists. split; [reflexivity|].
             exists (pre ++ [cur]), [f], post. cbn.
             split; [reflexivity|]. split; [reflexivity|].
             split; [apply Forall_app; auto|].
             split; [len|]. split; [exact Hpost'|]. split.
             ++ rewrite !concat_app. cbn. now rewrite !app_nil_r.
             ++ cbn [nonempty] in *. len.
  Qed.

  Lemma dist_loop_inv B n total files : forall i s done,
    n - i = length files -> dinv B done (length files) s ->
    exists s', dist_loop FL F size_of B n total i files s = Ok s' /\ dinv B (done ++ files) 0 s'.
  Proof.
    induction files as [|f files IH]; intros i s done Hn Hi; cbn [dist_loop].
    - exists s. rewrite app_nil_r. auto.
    - cbn [List.length] in *. destruct (dist_step_inv B n total i f s done _ Hn Hi) as (s'&->&Hs'). cbn [bind].
      destruct (IH (S i) s' (done ++ [f])) as (s''&E&H); [lia|exact Hs'|].
      exists s''. rewrite <- app_assoc in H. auto.
  Qed.

  Lemma distribute_ok B files :
    0 < B -> B <= length files ->
    exists bins, distribute_evenly_by_size FL F size_of B files = Ok bins
      /\ length bins = B /\ concat bins = files /\ Forall (fun b => b <> []) bins.
  Proof.
    intros HB Hl. unfold distribute_evenly_by_size, pydiv.
    destruct (Nat.eqb_spec B 0); [lia|]. cbn [bind].
    destruct (Nat.leb_spec B (length files)); [|lia]. cbn [assert_ bind].
    set (total := fold_left _ files 0%Z).
    set (s0 := {| files_per_bin := _ |}).
    destruct (dist_loop_inv B (length files) total files 0 s0 []) as (s'&->&Hi).
    - lia.
    - destruct B as [|B]; [lia|]. exists [], [], (repeat [] B). cbn.
      split; [reflexivity|]. split; [reflexivity|]. split; [constructor|].
      split; [now rewrite repeat_length|]. split; [|split; [reflexivity|lia]].
      apply Forall_forall. intros x Hx. now apply repeat_spec in Hx.
    - cbn [bind]. destruct Hi as (pre&cur&post&Hb&Hp&Hne&Hlen&Hpost&Hc&Hr). cbn [app] in Hc.
      rewrite app_length in Hlen. cbn in Hlen.
      destruct (nonempty cur) eqn:Ecur; [|lia].
      assert (post = []) as -> by (destruct post; [reflexivity|cbn in Hlen; lia]).
      assert (Hall : Forall (fun b => nonempty b = true) (files_per_bin FL F s')).
      { rewrite Hb. apply Forall_app. auto. }
      assert (forallb nonempty (files_per_bin FL F s') = true) as ->.
      { apply forallb_forall. rewrite Forall_forall in Hall. exact Hall. }
      cbn. eexists. split; [reflexivity|]. split; [rewrite Hb, app_length; cbn; lia|].
      split; [now rewrite Hb|].
      eapply Forall_impl; [|exact Hall]. intros b Hbb ->. discriminate.
  Qed.

  Lemma distribute_too_few B files :
    length files < B -> distribute_evenly_by_size FL F size_of B files = Err AssertionError.
  Proof.
    intros H. unfold distribute_evenly_by_size, pydiv. destruct (Nat.eqb_spec B 0); [lia|]. cbn [bind].
    destruct (Nat.leb_spec B (length files)); [lia|]. reflexivity.
  Qed.

  (** * Histories *)
  Variable R : rng_api.
  Variable files : list F.
  Variable preload : nat.

  Definition files_of (cfg : ds_cfg) (e : nat) : res (list F) :=
    let* bins := bins_of_full_epoch FL F size_of R cfg files ((e - 1) / partition_epoch cfg) in
    pyget bins ((e - 1) mod partition_epoch cfg).

  Definition hinv (cfg : ds_cfg) (d : dfd F) : Prop :=
    (forall k b, lookup k (order_cache F d) = Some b -> bins_of_full_epoch FL F size_of R cfg files k = Ok b)
    /\ (forall e fs, lookup e (workers F d) = Some fs -> files_of cfg e = Ok fs).

  Lemma lookup_cons {B} k k' (v : B) d : lookup k ((k', v) :: d) = if k' =? k then Some v else lookup k d.
  Proof. unfold lookup. cbn. now destruct (k' =? k). Qed.

  Lemma lookup_filter {B} k (P : nat -> bool) (d : list (nat * B)) v :
    lookup k (filter (fun kv => P (fst kv)) d) = Some v -> lookup k d = Some v.
  Proof.
    induction d as [|[k' v'] d IH]; [auto|]. cbn [filter fst].
    destruct (P k') eqn:E; rewrite !lookup_cons.
    - destruct (k' =? k); auto.
    - destruct (Nat.eqb_spec k' k) as [->|]; auto.
      intros H. exfalso. clear IH. induction d as [|[k2 v2] d IH2]; [discriminate|].
      cbn [filter fst] in H. destruct (P k2) eqn:E2; [|auto].
      rewrite lookup_cons in H. destruct (Nat.eqb_spec k2 k) as [->|]; [congruence|auto].
  Qed.

  Lemma fill_order_cache_inv cfg eps : forall c c',
    (forall k b, lookup k c = Some b -> bins_of_full_epoch FL F size_of R cfg files k = Ok b) ->
    fill_order_cache FL F size_of R cfg files eps c = Ok c' ->
    (forall k b, lookup k c' = Some b -> bins_of_full_epoch FL F size_of R cfg files k = Ok b).
  Proof.
    induction eps as [|ep eps IH]; cbn [fill_order_cache]; intros c c' Hc H.
    - apply Ok_inj in H. subst. exact Hc.
    - destruct (lookup ((ep - 1) / partition_epoch cfg) c) eqn:E; [eauto|].
      apply bind_Ok in H as (bins&Hb&H). eapply IH; [|exact H].
      intros k b. rewrite lookup_cons. destruct (Nat.eqb_spec ((ep - 1) / partition_epoch cfg) k) as [<-|]; [|auto].
      intros [= <-]. exact Hb.
  Qed.

  Lemma fill_workers_inv cfg c eps : forall w w',
    (forall k b, lookup k c = Some b -> bins_of_full_epoch FL F size_of R cfg files k = Ok b) ->
    (forall e fs, lookup e w = Some fs -> files_of cfg e = Ok fs) ->
    fill_workers F cfg eps c w = Ok w' ->
    (forall e fs, lookup e w' = Some fs -> files_of cfg e = Ok fs).
  Proof.
    induction eps as [|ep eps IH]; cbn [fill_workers]; intros w w' Hc Hw H.
    - apply Ok_inj in H. subst. exact Hw.
    - destruct (lookup ep w) eqn:E; [eauto|].
      destruct (lookup ((ep - 1) / partition_epoch cfg) c) as [order|] eqn:Eo; [|discriminate].
      apply bind_Ok in H as (fs&Hfs&H). eapply IH; [exact Hc| |exact H].
      intros e fs'. rewrite lookup_cons. destruct (Nat.eqb_spec ep e) as [<-|]; [|auto].
      intros [= <-]. unfold files_of. rewrite (Hc _ _ Eo). exact Hfs.
  Qed.

  Lemma init_seq_order_inv cfg e d d' fs :
    hinv cfg d -> init_seq_order FL F size_of R cfg files preload e d = Ok (d', fs) ->
    hinv cfg d' /\ files_of cfg e = Ok fs.
  Proof.
    intros [Hc Hw] H. unfold init_seq_order in H.
    apply bind_Ok in H as (c&Ec&H). apply bind_Ok in H as (w&Ew&H).
    assert (Hc' : forall k b, lookup k c = Some b -> bins_of_full_epoch FL F size_of R cfg files k = Ok b).
    { eapply fill_order_cache_inv; [|exact Ec]. intros k b Hk.
      apply (lookup_filter k (fun x => negb (x <? (e - 1) / partition_epoch cfg))) in Hk. auto. }
    assert (Hw' : forall e fs, lookup e w = Some fs -> files_of cfg e = Ok fs).
    { eapply fill_workers_inv; [exact Hc'| |exact Ew]. intros k b Hk.
      apply (lookup_filter k (fun x => negb (x <? e))) in Hk. auto. }
    destruct (lookup e w) as [fs'|] eqn:E; [|discriminate].
    apply Ok_inj in H. injection H as <- <-. split; [split; auto|]. auto.
  Qed.

  Lemma run_ops_inv cfg ops : forall d d' out,
    hinv cfg d -> run_ops FL F size_of R cfg files preload ops d = Ok (d', out) ->
    forall e fs, In (e, fs) out -> files_of cfg e = Ok fs.
  Proof.
    induction ops as [|[e0|free] ops IH]; cbn [run_ops]; intros d d' out Hd H e fs Hin.
    - apply Ok_inj in H. injection H as <- <-. destruct Hin.
    - apply bind_Ok in H as ([d1 fs1]&H1&H). apply bind_Ok in H as ([d2 out2]&H2&H).
      apply Ok_inj in H. injection H as <- <-.
      apply init_seq_order_inv in H1 as [Hd1 Hf1]; [|exact Hd].
      destruct Hin as [[= <- <-]|Hin]; [exact Hf1|]. eauto.
    - eapply IH; [|exact H|exact Hin]. destruct free; [|exact Hd].
      split; intros ? ? Hl; discriminate.
  Qed.

  Lemma hinv_init cfg : hinv cfg (dfd_init F).
  Proof. split; intros ? ? H; discriminate. Qed.

  Lemma observed_files_of cfg s e fs :
    observed FL F size_of R cfg files preload s e fs -> files_of (with_shard cfg s) e = Ok fs.
  Proof. intros (ops&d&out&H&Hin). eapply run_ops_inv; [|exact H|exact Hin]. apply hinv_init. Qed.

  (** the order of a full epoch *)
  Lemma mapM_pyget_perm idx :
    Permutation idx (seq 0 (length files)) ->
    exists order, mapM (pyget files) idx = Ok order /\ Permutation order files.
  Proof.
    intros Hp. destruct files as [|f0 fl] eqn:Ef.
    - cbn in Hp. apply Permutation_sym, Permutation_nil in Hp. subst. exists []. auto.
    - rewrite <- Ef in *. exists (map (fun i => nth i files f0) idx). split.
      + apply mapM_ok_map. intros x Hx. apply (Permutation_in _ Hp), in_seq in Hx.
        unfold pyget. rewrite (nth_error_nth' files f0) by lia. reflexivity.
      + rewrite Hp. clear. replace (map _ _) with files; [reflexivity|].
        apply nth_ext with (d := f0) (d' := f0); [now rewrite map_length, seq_length|].
        intros n Hn. rewrite (nth_indep (map _ _) f0 (nth 0 files f0)) by now rewrite map_length, seq_length.
        rewrite (map_nth (fun i => nth i files f0)). now rewrite seq_nth.
  Qed.

  Lemma files_order_flat_ok cfg k :
    rng_ok R -> (seq_ordering cfg = "default" \/ seq_ordering cfg = "random")%string ->
    exists order, files_order_flat F R cfg files k = Ok order /\ Permutation order files.
  Proof.
    intros HR [H|H]; unfold files_order_flat; rewrite H; cbn.
    - eauto.
    - apply mapM_pyget_perm. destruct HR as [_ HR]. apply HR.
  Qed.

  Lemma files_order_flat_shard cfg s k :
    files_order_flat F R (with_shard cfg s) files k = files_order_flat F R cfg files k.
  Proof. reflexivity. Qed.

  Lemma nth_error_pyslice {A} (l : list A) a b i :
    i < b - a -> nth_error (pyslice l a b) i = nth_error l (a + i).
  Proof.
    unfold pyslice. generalize (b - a) as n. intros n H.
    transitivity (nth_error (skipn a l) i).
    - revert H. generalize (skipn a l) as m. revert i. induction n as [|n IH]; intros i m H; [lia|].
      destruct m; [now rewrite firstn_nil|]. destruct i; cbn; [reflexivity|]. apply IH. lia.
    - revert l. induction a as [|a IH]; intros l; [reflexivity|]. destruct l; [now destruct i|]. cbn. apply IH.
  Qed.

  Lemma full_epoch_div P k j : j < P -> (k * P + 1 + j - 1) / P = k.
  Proof. intros H. replace (k * P + 1 + j - 1) with (j + k * P) by lia. rewrite Nat.div_add by lia.
    rewrite Nat.div_small; lia. Qed.
  Lemma full_epoch_mod P k j : j < P -> (k * P + 1 + j - 1) mod P = j.
  Proof. intros H. replace (k * P + 1 + j - 1) with (j + k * P) by lia. rewrite Nat.mod_add by lia.
    apply Nat.mod_small; lia. Qed.

  Lemma map_nth_error_seq {A B} (l : list A) (f : A -> B) (g : nat -> B) a n :
    (forall i x, i < n -> nth_error l (a + i) = Some x -> g i = f x) -> a + n <= length l ->
    map g (seq 0 n) = map f (pyslice l a (a + n)).
  Proof.
    intros Hg Hl. unfold pyslice. replace (a + n - a) with n by lia.
    assert (Hg' : forall i x, i < n -> nth_error (skipn a l) i = Some x -> g i = f x).
    { intros i x Hi Hx. apply (Hg i x Hi). rewrite <- Hx.
      clear. revert l. induction a; intros l; [reflexivity|]. destruct l; [now destruct i|]. cbn. apply IHa. }
    assert (Hl' : n <= length (skipn a l)) by (rewrite skipn_length; lia).
    clear Hg Hl. revert Hg' Hl'. generalize (skipn a l). revert g. clear.
    induction n as [|n IH]; intros g l Hg Hl; [reflexivity|].
    destruct l as [|x l]; [cbn in Hl; lia|]. cbn. f_equal.
    - apply (Hg 0 x); [lia|reflexivity].
    - rewrite <- seq_shift, map_map. apply IH; [|cbn in Hl; lia].
      intros i y Hi Hy. apply (Hg (S i) y); [lia|exact Hy].
  Qed.

  Lemma history_cover cfg k (obs : nat -> nat -> list F) :
    rng_ok R -> (seq_ordering cfg = "default" \/ seq_ordering cfg = "random")%string ->
    0 < partition_epoch cfg -> 0 < num_shards cfg ->
    num_shards cfg * partition_epoch cfg <= length files ->
    (forall s j, s < num_shards cfg -> j < partition_epoch cfg ->
       observed FL F size_of R cfg files preload s (k * partition_epoch cfg + 1 + j) (obs s j)) ->
    Permutation (concat (map (fun s => concat (map (obs s) (seq 0 (partition_epoch cfg)))) (seq 0 (num_shards cfg)))) files
    /\ (seq_ordering cfg = "default"%string ->
        concat (map (fun s => concat (map (obs s) (seq 0 (partition_epoch cfg)))) (seq 0 (num_shards cfg))) = files)
    /\ (forall s j, s < num_shards cfg -> j < partition_epoch cfg -> obs s j <> []).
  Proof.
    intros HR Hord HP HS Hl Hobs. set (P := partition_epoch cfg) in *. set (S := num_shards cfg) in *.
    destruct (files_order_flat_ok cfg k HR Hord) as (order&Eo&Hperm).
    destruct (distribute_ok (S * P) order) as (bins&Eb&Hlen&Hc&Hne).
    { nia. } { now rewrite (Permutation_length Hperm). }
    assert (Hf : forall s j, s < S -> j < P -> nth_error bins (P * s + j) = Some (obs s j)).
    { intros s j Hs Hj. pose proof (observed_files_of _ _ _ _ (Hobs s j Hs Hj)) as H.
      unfold files_of in H. change (partition_epoch (with_shard cfg s)) with P in H.
      rewrite full_epoch_div, full_epoch_mod in H by exact Hj.
      unfold bins_of_full_epoch in H. rewrite files_order_flat_shard, Eo in H. cbn [bind] in H.
      change (num_shards (with_shard cfg s)) with S in H. change (partition_epoch (with_shard cfg s)) with P in H.
      change (shard_index (with_shard cfg s)) with s in H.
      rewrite Eb in H. cbn [bind] in H. unfold pyget in H. rewrite nth_error_pyslice in H by lia.
      destruct (nth_error bins (P * s + j)); [|discriminate]. apply Ok_inj in H. congruence. }
    assert (Hcat : concat (map (fun s => concat (map (obs s) (seq 0 P))) (seq 0 S)) = order).
    { rewrite <- Hc. transitivity (concat (map (fun s => concat (pyslice bins (P * s) (P * Datatypes.S s))) (seq 0 S))).
      - f_equal. apply map_ext_in. intros s Hs. apply in_seq in Hs. f_equal.
        rewrite <- (map_id (pyslice bins (P * s) (P * Datatypes.S s))).
        replace (P * Datatypes.S s) with (P * s + P) by lia.
        apply map_nth_error_seq.
        + intros i x Hi Hx. rewrite Hf in Hx by lia. congruence.
        + rewrite Hlen. nia.
      - rewrite <- (map_map (fun s => pyslice bins (P * s) (P * Datatypes.S s)) (@List.concat F)).
        assert (forall ll : list (list (list F)), concat (map (@List.concat F) ll) = concat (concat ll)) as ->.
        { induction ll as [|x ll IH]; cbn; [reflexivity|]. now rewrite concat_app, IH. }
        f_equal. rewrite (concat_slices bins (fun i => P * i)) by (intros; lia).
        rewrite Nat.mul_0_r. apply pyslice_all. lia. }
    split; [rewrite Hcat; exact Hperm|]. split.
    - intros Hd. rewrite Hcat. unfold files_order_flat in Eo. rewrite Hd in Eo. cbn in Eo.
      apply Ok_inj in Eo. now subst.
    - intros s j Hs Hj. specialize (Hf s j Hs Hj). apply nth_error_In in Hf.
      rewrite Forall_forall in Hne. auto.
  Qed.

  (** * No operation fails *)
  Lemma bins_of_full_epoch_ok cfg k :
    rng_ok R -> (seq_ordering cfg = "default" \/ seq_ordering cfg = "random")%string ->
    0 < partition_epoch cfg -> shard_index cfg < num_shards cfg ->
    num_shards cfg * partition_epoch cfg <= length files ->
    exists b, bins_of_full_epoch FL F size_of R cfg files k = Ok b /\ length b = partition_epoch cfg.
  Proof.
    intros HR Hord HP HS Hl. destruct (files_order_flat_ok cfg k HR Hord) as (order&Eo&Hperm).
    destruct (distribute_ok (num_shards cfg * partition_epoch cfg) order) as (bins&Eb&Hlen&Hc&Hne).
    { nia. } { now rewrite (Permutation_length Hperm). }
    unfold bins_of_full_epoch. rewrite Eo. cbn [bind]. rewrite Eb. cbn [bind].
    eexists. split; [reflexivity|]. rewrite pyslice_length; [lia|]. rewrite Hlen. nia.
  Qed.

  Lemma fill_order_cache_ok cfg eps :
    rng_ok R -> (seq_ordering cfg = "default" \/ seq_ordering cfg = "random")%string ->
    0 < partition_epoch cfg -> shard_index cfg < num_shards cfg ->
    num_shards cfg * partition_epoch cfg <= length files ->
    forall c, exists c', fill_order_cache FL F size_of R cfg files eps c = Ok c'
      /\ (forall k b, lookup k c = Some b -> lookup k c' = Some b)
      /\ (forall e, In e eps -> exists b, lookup ((e - 1) / partition_epoch cfg) c' = Some b).
  Proof.
    intros HR Hord HP HS Hl. induction eps as [|ep eps IH]; intros c; cbn [fill_order_cache].
    - exists c. split; [reflexivity|]. split; [auto|]. intros e [].
    - destruct (lookup ((ep - 1) / partition_epoch cfg) c) as [b|] eqn:E.
      + destruct (IH c) as (c'&->&H1&H2). exists c'. split; [reflexivity|]. split; [exact H1|].
        intros e [<-|He]; eauto.
      + destruct (bins_of_full_epoch_ok cfg ((ep - 1) / partition_epoch cfg) HR Hord HP HS Hl) as (b&->&_). cbn [bind].
        destruct (IH (((ep - 1) / partition_epoch cfg, b) :: c)) as (c'&->&H1&H2). exists c'. split; [reflexivity|].
        split.
        * intros k b' Hk. apply H1. rewrite lookup_cons.
          destruct (Nat.eqb_spec ((ep - 1) / partition_epoch cfg) k) as [<-|]; [congruence|exact Hk].
        * intros e [<-|He]; [|auto]. exists b. apply H1. rewrite lookup_cons, Nat.eqb_refl. reflexivity.
  Qed.

  Lemma fill_workers_ok cfg c eps :
    0 < partition_epoch cfg ->
    (forall k b, lookup k c = Some b -> length b = partition_epoch cfg) ->
    (forall e, In e eps -> exists b, lookup ((e - 1) / partition_epoch cfg) c = Some b) ->
    forall w, exists w', fill_workers F cfg eps c w = Ok w'
      /\ (forall k b, lookup k w = Some b -> lookup k w' = Some b)
      /\ (forall e, In e eps -> exists fs, lookup e w' = Some fs).
  Proof.
    intros HP Hlen. induction eps as [|ep eps IH]; intros Hin w; cbn [fill_workers].
    - exists w. split; [reflexivity|]. split; [auto|]. intros e [].
    - destruct (lookup ep w) as [fs|] eqn:E.
      + destruct (IH (fun e He => Hin e (or_intror He)) w) as (w'&->&H1&H2). exists w'.
        split; [reflexivity|]. split; [exact H1|]. intros e [<-|He]; eauto.
      + destruct (Hin ep (or_introl eq_refl)) as (b&Eb). rewrite Eb. pose proof (Hlen _ _ Eb) as Hb.
        unfold pyget. destruct (nth_error b ((ep - 1) mod partition_epoch cfg)) as [fs|] eqn:En.
        2:{ apply nth_error_None in En. pose proof (Nat.mod_upper_bound (ep - 1) (partition_epoch cfg)). lia. }
        cbn [bind]. destruct (IH (fun e He => Hin e (or_intror He)) ((ep, fs) :: w)) as (w'&->&H1&H2). exists w'.
        split; [reflexivity|]. split.
        * intros k b' Hk. apply H1. rewrite lookup_cons.
          destruct (Nat.eqb_spec ep k) as [<-|]; [congruence|exact Hk].
        * intros e [<-|He]; [|auto]. exists fs. apply H1. rewrite lookup_cons, Nat.eqb_refl. reflexivity.
  Qed.

  Lemma init_seq_order_ok cfg e d :
    rng_ok R -> (seq_ordering cfg = "default" \/ seq_ordering cfg = "random")%string ->
    0 < partition_epoch cfg -> shard_index cfg < num_shards cfg ->
    num_shards cfg * partition_epoch cfg <= length files ->
    hinv cfg d -> exists d' fs, init_seq_order FL F size_of R cfg files preload e d = Ok (d', fs).
  Proof.
    intros HR Hord HP HS Hl [Hc Hw]. unfold init_seq_order.
    set (c0 := filter _ (order_cache F d)).
    assert (Hc0 : forall k b, lookup k c0 = Some b -> bins_of_full_epoch FL F size_of R cfg files k = Ok b).
    { intros k b Hk. apply (lookup_filter k (fun x => negb (x <? (e - 1) / partition_epoch cfg))) in Hk. auto. }
    destruct (fill_order_cache_ok cfg (seq e (preload + 1)) HR Hord HP HS Hl c0) as (c&Ec&_&Hin). rewrite Ec. cbn [bind].
    destruct (fill_workers_ok cfg c (seq e (preload + 1)) HP) with (w := filter (fun kv => negb (fst kv <? e)) (workers F d))
      as (w&Ew&_&Hin').
    - intros k b Hk. pose proof (fill_order_cache_inv _ _ _ _ Hc0 Ec k b Hk) as Hb.
      destruct (bins_of_full_epoch_ok cfg k HR Hord HP HS Hl) as (b'&Hb'&Hlen). congruence.
    - exact Hin.
    - rewrite Ew. cbn [bind]. destruct (Hin' e) as (fs&->); [apply in_seq; lia|]. eauto.
  Qed.

  Lemma run_ops_ok cfg ops :
    rng_ok R -> (seq_ordering cfg = "default" \/ seq_ordering cfg = "random")%string ->
    0 < partition_epoch cfg -> shard_index cfg < num_shards cfg ->
    num_shards cfg * partition_epoch cfg <= length files ->
    forall d, hinv cfg d -> exists d' out, run_ops FL F size_of R cfg files preload ops d = Ok (d', out).
  Proof.
    intros HR Hord HP HS Hl. induction ops as [|[e|free] ops IH]; intros d Hd; cbn [run_ops].
    - eauto.
    - destruct (init_seq_order_ok cfg e d HR Hord HP HS Hl Hd) as (d1&fs&E). rewrite E. cbn [bind].
      apply init_seq_order_inv in E as [Hd1 _]; [|exact Hd].
      destruct (IH d1 Hd1) as (d2&out&->). cbn [bind]. eauto.
    - apply IH. destruct free; [apply hinv_init|exact Hd].
  Qed.
End Dist.
