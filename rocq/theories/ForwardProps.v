(** C32: items put back into the data iterator come first. C41: splitting batches of the forward pass when out of memory. *)
From Coq Require Import String.
From Verif Require Import Base ListLemmas PyDict BatchPipeModel ChunkModel ChunkSpec ChunkProofs ChunkProps ForwardModel ForwardSpec ForwardProofs.
Local Open Scope string_scope. Local Open Scope nat_scope. Local Open Scope list_scope.
Local Notation length := List.length.

(** Every history of pushing back and reading returns what a plain list of pushed items in front of the wrapped iterator returns. *)
Theorem C32_history : forall (A S : Type) (step : S -> option A * S) (it : S) ops, q_run step (q_init it) ops = ideal_run step [] it ops.
Proof. intros A S step it ops. exact (q_run_ideal step ops [] it). Qed.
Print Assumptions C32_history.

(** After any history, pushed items are the next ones, in order, and what follows is what would have come without pushing. *)
Theorem C32_pushed_items_come_next : forall (A S : Type) (step : S -> option A * S) (q : qiter A S) items ops,
  q_run step q (Push items :: repeat Next (length items) ++ ops) = map Some items ++ q_run step q ops.
Proof. intros A S step [queue it] items ops. rewrite !q_run_ideal. cbn [ideal_run]. apply ideal_next_pushed. Qed.
Print Assumptions C32_pushed_items_come_next.

Example C32_run : q_run list_step (q_init [1; 2; 3; 4]) [Next; Push [10; 11]; Next; Push [20; 21]; Next; Next; Next; Next; Next; Next; Next; Push [1]; Next]
  = [Some 1; Some 10; Some 20; Some 21; Some 11; Some 2; Some 3; Some 4; None; Some 1].
Proof. reflexivity. Qed.

(** Splitting a batch in which every entry has the batch dimension: both parts are such batches, non-empty, and together they have the sequences of the batch in order, with all their data. *)
Theorem C41_split_keeps_sequences : forall (X : Type) (b : raw X) n, is_batch n b -> 2 <= n ->
  exists p1 p2 n1 n2, raw_dict_split_batch b 2 = Ok [p1; p2] /\ is_batch n1 p1 /\ is_batch n2 p2 /\ n1 + n2 = n /\ 1 <= n2 /\ n2 <= n1 <= S n2 /\
    forall keys, seqs_of keys n b = seqs_of keys n1 p1 ++ seqs_of keys n2 p2.
Proof.
  intros X b n Hb Hn. unfold raw_dict_split_batch. rewrite (is_batch_size n b Hb). cbn [bind]. rewrite split_two by exact Hn. cbn [bind].
  assert (Hd : n <= 2 * ((n + 1) / 2) <= n + 1) by (pose proof (Nat.div_mod (n + 1) 2); pose proof (Nat.mod_upper_bound (n + 1) 2); lia). set (h := (n + 1) / 2) in *. clearbody h.
  assert (Hs : list_sum [h; n - h] = n) by (cbn [list_sum fold_right]; lia). rewrite Hs, Nat.eqb_refl. cbn [assert_ bind].
  destruct (parts_pure n b [h; n - h] Hb 0) as (ps&->&H2&H3); [repeat constructor; lia|lia|]. inversion H2 as [|? p1 ? ps1 B1 H4]; subst. inversion H4 as [|? p2 ? ps2 B2 H5]; subst. inversion H5; subst.
  exists p1, p2, h, (n - h). split; [reflexivity|]. split; [exact B1|]. split; [exact B2|]. split; [lia|]. split; [lia|]. split; [lia|]. intros keys. specialize (H3 keys). rewrite Hs in H3. cbn [combine map List.concat] in H3. rewrite app_nil_r in H3. symmetry. exact H3.
Qed.
Print Assumptions C41_split_keeps_sequences.

(** The loop itself, for such batches and without reading the meta information: whatever attempts run out of memory, the callback gets the sequences of all batches, in order and each once; the loop only fails on a batch with a single sequence, and until then nothing is lost. *)
Theorem C41_loop_keeps_sequences_partial : forall (X : Type) (oom : nat -> raw X -> bool) keys batches,
  Forall (fun b => exists n, 1 <= n /\ is_batch n b) batches ->
  exists fuel, forall fuel', fuel <= fuel' ->
  let '(out, r) := forward (fun _ => Ok tt) oom (fun b => can_split b 2) (fun b => raw_dict_split_batch b 2) (all_seqs keys) fuel' 0 (q_init batches) [] in
  exists todo, flat_map (all_seqs keys) batches = out ++ todo /\
    (r = Ok tt /\ todo = [] \/ r = Err OtherException /\ exists b k s rest, oom k b = true /\ all_seqs keys b = [s] /\ todo = s :: rest).
Proof.
  intros X oom keys batches Hb. exists (S (cost (all_seqs keys) batches)). intros fuel' Hf.
  pose proof (forward_lemma (fun _ => Ok tt) oom (fun b => can_split b 2) (fun b => raw_dict_split_batch b 2) (all_seqs keys) (fun b => exists n, 1 <= n /\ is_batch n b)) as L.
  assert (Hlen : forall n (b : raw X), is_batch n b -> length (all_seqs keys b) = n) by (intros n b H; unfold all_seqs; rewrite (is_batch_size n b H); unfold seqs_of; now rewrite map_length, seq_length).
  specialize (L ltac:(auto)). specialize (L ltac:(intros b (n&H1&H2); unfold can_split; rewrite (is_batch_size n b H2); cbn [bind]; now rewrite (Hlen n b H2))).
  assert (Hs : forall b : raw X, (exists n, 1 <= n /\ is_batch n b) -> 2 <= length (all_seqs keys b) -> exists p1 p2, raw_dict_split_batch b 2 = Ok [p1; p2] /\ (exists n, 1 <= n /\ is_batch n p1) /\ (exists n, 1 <= n /\ is_batch n p2) /\ all_seqs keys b = all_seqs keys p1 ++ all_seqs keys p2 /\ all_seqs keys p1 <> [] /\ all_seqs keys p2 <> []).
  { intros b (n&H1&H2) H3. rewrite (Hlen n b H2) in H3. destruct (C41_split_keeps_sequences X b n H2 H3) as (p1&p2&n1&n2&E&B1&B2&H4&H5&H6&H7). exists p1, p2. split; [exact E|]. split; [exists n1; split; [lia|exact B1]|]. split; [exists n2; split; [lia|exact B2]|].
    split; [unfold all_seqs; rewrite (is_batch_size n b H2), (is_batch_size n1 p1 B1), (is_batch_size n2 p2 B2); apply H7|]. pose proof (Hlen n1 p1 B1). pose proof (Hlen n2 p2 B2). split; intros E0; rewrite E0 in *; cbn in *; lia. }
  specialize (L Hs fuel' 0 (q_init batches) []). change (pending (q_init batches)) with batches in L.
  specialize (L Hb). match type of L with (?P -> _) => assert (Hp : P) end. { eapply Forall_impl; [|exact Hb]. intros b (n&H1&H2) E. pose proof (Hlen n b H2). rewrite E in *. cbn in *. lia. }
  specialize (L Hp ltac:(lia)). destruct (forward _ _ _ _ _ fuel' 0 (q_init batches) []) as [out r]. destruct L as (done&todo&->&E&H). exists todo. cbn [app]. split; [exact E|]. destruct H as [H|(b&k&s&rest&H1&H2&H3&H4)]; [now left|right]. split; [exact H1|]. exists b, k, s, rest. auto.
Qed.
Print Assumptions C41_loop_keeps_sequences_partial.

(** But the batches that the data loader really gives contain the number of sequences, the epoch and the completed fraction as single numbers. Such a batch can never be split ... *)
Theorem C41_real_batch_cannot_be_split_refuted : forall (X : Type) (zero : X) ltb (first : seqd X) others b k x num n,
  can_collate (first :: others) (map fst first) -> (k = "num_seqs" \/ k = "epoch") -> In (k, Scalar x) first -> total_order ltb ->
  collate_batch zero ltb (first :: others) = Ok b -> batch_size b = Ok n -> 0 < num <= n -> raw_dict_split_batch b num = Err IndexError.
Proof.
  intros X zero ltb first others b k x num n Hc Hk Hin Ho E Hn Hnum. destruct (C13_collate X zero ltb first others Ho Hc) as (b'&E'&_&_&_&H&_). rewrite E in E'. apply Ok_inj in E'. subst b'. apply (scalar_no_split b k x num n); [now apply H|exact Hn|exact Hnum].
Qed.
Print Assumptions C41_real_batch_cannot_be_split_refuted.

(** ... so when the first batch runs out of memory, the forward pass fails with an IndexError instead of splitting it. *)
Theorem C41_forward_fails_on_oom_refuted : forall (X Q : Type) (oom : nat -> raw X -> bool) (seqs : raw X -> list Q) b batches x y n fuel,
  dget b "num_seqs" = Some (CSingle (Scalar x)) -> dget b "complete_frac" = Some (CSingle (Scalar y)) -> batch_size b = Ok n -> 2 <= n -> oom 0 b = true ->
  forward read_meta oom (fun b => can_split b 2) (fun b => raw_dict_split_batch b 2) seqs (S fuel) 0 (q_init (b :: batches)) [] = ([], Err IndexError).
Proof.
  intros X Q oom seqs b batches x y n fuel H1 H2 H3 H4 H5. cbn [forward]. unfold q_init, q_next. cbn [q_queue q_iter rev list_step].
  assert (Hm : read_meta b = Ok tt) by (unfold read_meta; rewrite H1, H2; reflexivity). rewrite Hm, H5. unfold can_split. rewrite H3. cbn [bind]. destruct (Nat.leb_spec 2 n); [|lia]. rewrite (scalar_no_split b "num_seqs" x 2 n); [reflexivity|now apply dget_In|exact H3|lia].
Qed.
Print Assumptions C41_forward_fails_on_oom_refuted.

(** And no batch that the loop accepts (it reads the meta information of each) could be split: with at least two sequences it is not a batch in the sense of the first theorem. *)
Theorem C41_no_batch_is_readable_and_splittable : forall (X : Type) (b : raw X) n, read_meta b = Ok tt -> is_batch n b -> n = 1.
Proof.
  intros X b n H (Hne&Hd&Hb). unfold read_meta in H. destruct (dget b "complete_frac") as [v|] eqn:E; [|discriminate]. pose proof (Hb _ _ (dget_In _ _ _ E)) as H0. destruct v as [[f|y]|rows|lens|[|x [|x' xs]]]; cbn [bind] in H; try discriminate; try contradiction. destruct H0 as [<- _]. reflexivity.
Qed.
Print Assumptions C41_no_batch_is_readable_and_splittable.

(** The sizes of the parts sum up to the batch size, for any number of parts up to it. *)
Theorem C41_split_sizes : forall num total, 0 < num <= total -> exists l, split_sizes num total = Ok l /\ length l = num /\ list_sum l = total.
Proof. exact split_sizes_ok. Qed.
Print Assumptions C41_split_sizes.
(** But with more than two parts, some can be empty. *)
Theorem C41_empty_part_refuted : exists num total, 0 < num <= total /\ exists l, split_sizes num total = Ok l /\ In 0 l.
Proof. exists 3, 4. split; [lia|]. exists [2; 2; 0]. split; [reflexivity|cbn; tauto]. Qed.
Print Assumptions C41_empty_part_refuted.

Definition C41_batch : raw nat := [("data", CPadded [[1; 2; 3]; [4; 0; 0]; [5; 6; 0]]); ("data:seq_len", CLens [3; 1; 2]); ("seq_tag", CStack [100; 101; 102])].
Example C41_is_batch : is_batch 3 C41_batch.
Proof.
  split; [discriminate|]. split; [repeat constructor; cbn; intuition discriminate|]. intros k v [H|[H|[H|[]]]]; injection H as <- <-.
  - split; [reflexivity|]. exists [3; 1; 2]. cbn. auto.
  - split; [reflexivity|cbn; intuition discriminate].
  - split; [reflexivity|cbn; intuition discriminate].
Qed.
Example C41_split_run : raw_dict_split_batch C41_batch 2 =
  Ok [[("data", CPadded [[1; 2; 3]; [4; 0; 0]]); ("data:seq_len", CLens [3; 1]); ("seq_tag", CStack [100; 101])]; [("data", CPadded [[5; 6]]); ("data:seq_len", CLens [2]); ("seq_tag", CStack [102])]].
Proof. reflexivity. Qed.
Example C41_real_run : exists b, collate_batch 0 Nat.ltb [[("data", Frames [1; 2]); ("seq_tag", Scalar 100); ("num_seqs", Scalar 2); ("complete_frac", Scalar 1)]; [("data", Frames [3]); ("seq_tag", Scalar 101); ("num_seqs", Scalar 2); ("complete_frac", Scalar 2)]] = Ok b /\
  raw_dict_split_batch b 2 = Err IndexError.
Proof. eexists. split; reflexivity. Qed.
