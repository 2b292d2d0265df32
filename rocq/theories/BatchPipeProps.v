(** Properties C08 and C09: size-limited batching and bucket batching. *)
From Coq Require Import String Sorted.
From Verif Require Import Base ListLemmas PyDict NumbersDictModel NumbersDictSpec BatchPipeModel BatchPipeSpec BatchPipeProofs.
Local Open Scope string_scope.
Local Open Scope list_scope.

(** C08: for every stream of sequences, and limits that may differ from sequence to sequence: batching ends without
    error, the batches are non-empty and concatenate to the stream, a batch fulfils the limits of its last
    sequence (the size limit unless it is a single sequence), and the next sequence would not have fit into it. *)
Theorem C08_batching : forall X (max_seqs : seqd X -> Z) (max_batch_size : seqd X -> ndict Z) (data : list (seqd X)),
  (forall s, In s data -> dict_ok s /\ (0 < max_seqs s)%Z /\ positive_limit (max_batch_size s)) ->
  exists batches, batching max_seqs max_batch_size data = (batches, Ok tt) /\
    List.concat batches = data /\
    (forall b, In b batches -> b <> []) /\
    (forall b0 s, In (b0 ++ [s]) batches ->
       (Z.of_nat (List.length (b0 ++ [s])) <= max_seqs s)%Z /\ (b0 = [] \/ within (max_batch_size s) (b0 ++ [s]))) /\
    (forall pre b1 s b2 post, batches = pre ++ b1 :: (s :: b2) :: post ->
       (max_seqs s <= Z.of_nat (List.length b1))%Z \/ ~ within (max_batch_size s) (b1 ++ [s])).
Proof.
  intros X max_seqs max_batch_size data H. rewrite <- Forall_forall in H.
  destruct (batching_spec max_seqs max_batch_size data H) as (bs&H1&H2&H3&H4&H5).
  exists bs. rewrite Forall_forall in H3, H4. repeat split; auto.
  - now apply (H4 _ H0 b0 s).
  - now apply (H4 _ H0 b0 s).
  - intros. eapply H5; eauto.
Qed.
Print Assumptions C08_batching.

(** C08: with constant limits, as they come from the config: every batch has at most [max_seqs] sequences, and if it
    has more than one, its padded size is within [batch_size] for every data key. *)
Theorem C08_batching_constant_limits : forall X max_seqs batch_size (data : list (seqd X)),
  (forall s, In s data -> dict_ok s) -> (0 < parse_max_seqs max_seqs)%Z -> positive_limit (parse_batch_size batch_size) ->
  exists batches, batching (fun _ => parse_max_seqs max_seqs) (fun _ => parse_batch_size batch_size) data = (batches, Ok tt) /\
    List.concat batches = data /\
    (forall b, In b batches -> b <> [] /\ (Z.of_nat (List.length b) <= parse_max_seqs max_seqs)%Z /\
       (2 <= List.length b -> within (parse_batch_size batch_size) b)).
Proof.
  intros X max_seqs batch_size data Hd Hm Hp.
  destruct (C08_batching X (fun _ => parse_max_seqs max_seqs) (fun _ => parse_batch_size batch_size) data) as (bs&H1&H2&H3&H4&_).
  { intros s Hs. auto. }
  exists bs. split; [exact H1|]. split; [exact H2|]. intros b Hb.
  assert (Hne := H3 b Hb). destruct (exists_last Hne) as (b0&s&->). destruct (H4 b0 s Hb) as [H5 H6].
  repeat split; auto. intros Hlen. destruct H6 as [->|H6]; [cbn in Hlen; lia|exact H6].
Qed.
Print Assumptions C08_batching_constant_limits.

(** a stream with keys "data" (frames) and "tag" (a scalar), and two limits *)
(** C08: what the options mean: without max_seqs or with -1 there is no limit on the number of sequences, without batch_size none on the size.
    (Python's sys.maxsize stands for no limit; a stream which reaches it is excluded.) *)
Theorem C08_batching_options : forall X max_seqs batch_size (data : list (seqd X)),
  (forall s, In s data -> dict_ok s) -> (forall m, seq_limit max_seqs = Some m -> (0 < m)%Z) -> (forall x, batch_size = Some x -> positive_limit (nd_make x)) ->
  (Z.of_nat (List.length data) < maxsize)%Z -> (forall k, (Z.of_nat (padded_size data k) <= maxsize)%Z) ->
  exists batches, batching (fun _ => parse_max_seqs max_seqs) (fun _ => parse_batch_size batch_size) data = (batches, Ok tt) /\
    List.concat batches = data /\
    (forall b, In b batches -> b <> [] /\ (forall m, seq_limit max_seqs = Some m -> (Z.of_nat (List.length b) <= m)%Z) /\
       (2 <= List.length b -> forall x, batch_size = Some x -> within (nd_make x) b)) /\
    (forall pre b1 s b2 post, batches = pre ++ b1 :: (s :: b2) :: post ->
       (exists m, seq_limit max_seqs = Some m /\ (m <= Z.of_nat (List.length b1))%Z) \/
       (exists x, batch_size = Some x /\ ~ within (nd_make x) (b1 ++ [s]))).
Proof.
  intros X max_seqs batch_size data Hd Hm Hx Hlen Hsize.
  assert (Hp : (parse_max_seqs max_seqs = maxsize /\ seq_limit max_seqs = None) \/ seq_limit max_seqs = Some (parse_max_seqs max_seqs)).
  { destruct max_seqs as [m|]; [|left; now split]. cbn. destruct (Z.eqb_spec m (-1)), (Z.eq_dec m (-1)); try contradiction; [left; now split|now right]. }
  destruct (C08_batching X (fun _ => parse_max_seqs max_seqs) (fun _ => parse_batch_size batch_size) data) as (bs&H1&H2&H3&H4&H5).
  { intros s Hs. split; [auto|]. split; [destruct Hp as [[-> _]|Hp]; [reflexivity|now apply Hm]|].
    destruct batch_size as [x|]; [now apply Hx|]. cbn. split; [right; discriminate|]. split; [intros k m []|]. intros m [= <-]. reflexivity. }
  exists bs. split; [exact H1|]. split; [exact H2|]. split.
  - intros b Hb. assert (Hne := H3 b Hb). split; [exact Hne|]. destruct (exists_last Hne) as (b0&s&->). destruct (H4 b0 s Hb) as [H6 H7]. split.
    + intros m Em. destruct Hp as [[_ Hp]|Hp]; [congruence|]. rewrite Em in Hp. injection Hp as ->. exact H6.
    + intros Hl x ->. destruct H7 as [->|H7]; [cbn in Hl; lia|exact H7].
  - intros pre b1 s b2 post E. assert (Hs := sublist_small pre b1 s b2 post data (eq_trans (f_equal _ (eq_sym E)) H2)). destruct Hs as [Hs1 Hs2].
    destruct (H5 _ _ _ _ _ E) as [H6|H6].
    + left. destruct Hp as [[Hp _]|Hp]; [rewrite Hp in H6; lia|]. eexists. split; [exact Hp|exact H6].
    + right. destruct batch_size as [x|]; [now exists x|]. exfalso. apply H6. intros k m Hk. change (Some maxsize = Some m) in Hk. apply (f_equal (fun o => match o with Some z => z | None => 0%Z end)) in Hk. rewrite <- Hk. specialize (Hsize k). specialize (Hs2 k). lia.
Qed.
Print Assumptions C08_batching_options.

Definition ex_seq (n : nat) : seqd nat := [("data", Frames (seq 0 n)); ("tag", Scalar n)].
Example C08_ex :
  let lim := Some (OpDict [("data", 10%Z)]) in
  positive_limit (parse_batch_size lim) /\ dict_ok (ex_seq 3) /\
  batching (fun _ => parse_max_seqs (Some 3%Z)) (fun _ => parse_batch_size lim) (map ex_seq [2; 2; 2; 2; 5; 6; 12; 1])
  = ([map ex_seq [2; 2; 2]; map ex_seq [2; 5]; map ex_seq [6]; map ex_seq [12]; map ex_seq [1]], Ok tt).
Proof.
  split; [|split].
  - repeat split; cbn; try discriminate; [left; discriminate|]. intros k m [[= <- <-]|[]]. lia.
  - repeat constructor; cbn; intuition discriminate.
  - vm_compute. reflexivity.
Qed.
(** no limits *)
Example C08_ex_unlimited :
  batching (fun _ => parse_max_seqs (Some (-1)%Z)) (fun _ => parse_batch_size None) (map ex_seq [2; 5; 1]) = ([map ex_seq [2; 5; 1]], Ok tt).
Proof. vm_compute. reflexivity. Qed.

(** C08: the length filter keeps, in order, exactly the sequences all of whose data is within the given limits. *)
Theorem C08_len_filter : forall X min_len max_len (data : list (seqd X)),
  (forall s, In s data -> dict_ok s) ->
  exists keep : seqd X -> bool, len_filter min_len max_len data = filter keep data /\
  forall s, In s data -> (keep s = true <->
    forall k l, In (k, Frames l) s ->
      (forall m, at_key min_len k = Some m -> (m <= Z.of_nat (List.length l))%Z) /\
      (forall m, at_key max_len k = Some m -> (Z.of_nat (List.length l) <= m)%Z)).
Proof.
  intros X min_len max_len data Hd. eexists. split; [reflexivity|]. intros s Hs. apply len_filter_keep. auto.
Qed.
Print Assumptions C08_len_filter.
Example C08_ex_filter :
  len_filter (nd_make (OpNum 2%Z)) (nd_make (OpDict [("data", 5%Z)])) (map ex_seq [1; 2; 5; 6; 3]) = map ex_seq [2; 5; 3].
Proof. reflexivity. Qed.

(** C09: the constructor accepts exactly the configurations with at least one bucket, positive numbers and
    different sizes. *)
Theorem C09_config : forall buckets,
  (exists bs, bucket_init buckets = Ok bs /\ Permutation bs buckets) <->
  buckets <> [] /\ (forall size n, In (size, n) buckets -> (0 < size /\ 0 < n)%Z) /\ NoDup (map fst buckets).
Proof.
  intros buckets. assert (H := bucket_init_spec buckets). unfold buckets_valid in H.
  destruct (bucket_init buckets) as [bs|e]; split.
  - intros _. tauto.
  - intros _. exists bs. tauto.
  - intros (bs&H'&_). discriminate.
  - tauto.
Qed.
Print Assumptions C09_config.

(** C09: for every stream, and for every outcome of the random choices: bucket batching ends without error and emits
    exactly the sequences that are not longer than the largest bucket, each once. Every batch belongs to one
    bucket [(size, n)]: it is not empty, has at most [n] sequences, none longer than [size]; and it has exactly [n]
    sequences if a later batch is from the same bucket. *)
Theorem C09_bucket_batching : forall X buckets bs length_key draw (data : list (seqd X)),
  bucket_init buckets = Ok bs ->
  (forall n i j, i < List.length buckets -> draw n i = Some j -> i <= j < List.length buckets) ->
  (forall s, In s data -> dict_ok s /\ has_size length_key s) ->
  exists out : list ((Z * Z) * list (seqd X)),
    bucket_batching bs length_key draw data = (map snd out, Ok tt) /\
    Permutation (List.concat (map snd out)) (filter (fits_some length_key buckets) data) /\
    (forall size n b, In ((size, n), b) out ->
       In (size, n) buckets /\ b <> [] /\ (Z.of_nat (List.length b) <= n)%Z /\
       forall s, In s b -> (seq_size length_key s <= size)%Z) /\
    (forall size n b b' pre mid post,
       out = pre ++ ((size, n), b) :: mid ++ ((size, n), b') :: post -> Z.of_nat (List.length b) = n).
Proof.
  intros X buckets bs length_key draw data Hi Hdr Hd. assert (Hs := bucket_init_spec buckets). rewrite Hi in Hs.
  destruct Hs as ((_&Hp&_)&Hperm&Hsort). rewrite <- Forall_forall in Hd.
  destruct (bucket_main bs length_key draw Hsort data) as (out&H1&H2&H3&H4&_); auto.
  { intros size n Hin. apply (Hp size n). eapply Permutation_in; eauto. }
  { intros n i j. rewrite (Permutation_length Hperm). apply Hdr. }
  exists out. split; [exact H1|]. split; [|split; [|exact H4]].
  - rewrite H2. apply Permutation_eq. apply filter_ext. intros s. unfold fits_some. apply eq_true_iff_eq.
    rewrite !existsb_exists. split; intros (x&Hx&E); exists x; split; auto;
      [eapply Permutation_in; eauto|eapply Permutation_in; [symmetry; exact Hperm|exact Hx]].
  - intros size n b Hin. destruct (H3 size n b Hin) as (Hb&Hr). split; [|exact Hr]. eapply Permutation_in; eauto.
Qed.
Print Assumptions C09_bucket_batching.

(** C09: without random choices each sequence goes to the smallest bucket that is large enough, and the sequences of
    each bucket come out in the order of the stream. *)
Theorem C09_best_fit_in_order : forall X buckets bs length_key draw (data : list (seqd X)),
  bucket_init buckets = Ok bs -> (forall n i, draw n i = None) ->
  (forall s, In s data -> dict_ok s /\ has_size length_key s) ->
  exists batches, bucket_batching bs length_key draw data = (batches, Ok tt) /\
    (forall b, In b batches -> exists size n, In (size, n) buckets /\ forall s, In s b -> best_fit length_key buckets size s = true) /\
    (forall size n, In (size, n) buckets ->
       filter (best_fit length_key buckets size) (List.concat batches) = filter (best_fit length_key buckets size) data).
Proof.
  intros X buckets bs length_key draw data Hi Hdr Hd. assert (Hs := bucket_init_spec buckets). rewrite Hi in Hs.
  destruct Hs as ((_&Hp&_)&Hperm&Hsort). rewrite <- Forall_forall in Hd.
  destruct (bucket_main bs length_key draw Hsort data) as (out&H1&_&H3&_&H5); auto.
  { intros size n Hin. apply (Hp size n). eapply Permutation_in; eauto. }
  { intros n i j _ E. rewrite Hdr in E. discriminate. }
  destruct (H5 Hdr) as [H6 H7].
  assert (Hbf : forall size s, best_fit (X := X) length_key bs size s = best_fit length_key buckets size s).
  { intros size s. unfold best_fit. f_equal. apply eq_true_iff_eq. rewrite !forallb_forall.
    split; intros Hx y Hy; apply Hx; [eapply Permutation_in; [symmetry; exact Hperm|exact Hy]|eapply Permutation_in; eauto]. }
  exists (map snd out). split; [exact H1|]. split.
  - intros b Hb. apply in_map_iff in Hb as (((size, n), b')&<-&Hin). exists size, n. cbn [snd].
    destruct (H3 size n b' Hin) as (Hb&_). split; [eapply Permutation_in; eauto|].
    intros s Hs. rewrite <- Hbf. eapply H6; eauto.
  - intros size n Hin. rewrite <- !(filter_ext _ _ (Hbf size)). apply (H7 size n).
    eapply Permutation_in; [symmetry; exact Hperm|exact Hin].
Qed.
Print Assumptions C09_best_fit_in_order.

Example C09_ex :
  let bs := [(8%Z, 2%Z); (3%Z, 3%Z)] in
  bucket_init bs = Ok [(3%Z, 3%Z); (8%Z, 2%Z)] /\
  bucket_batching [(3%Z, 3%Z); (8%Z, 2%Z)] "data" (fun _ _ => None) (map ex_seq [3; 4; 1; 9; 8; 2; 1; 5])
  = ([map ex_seq [4; 8]; map ex_seq [3; 1; 2]; map ex_seq [1]; map ex_seq [5]], Ok tt) /\
  bucket_batching [(3%Z, 3%Z); (8%Z, 2%Z)] "data" (fun n _ => if Nat.eqb n 0 then Some 1 else None) (map ex_seq [3; 4; 1; 9; 8; 2; 1; 5])
  = ([map ex_seq [3; 4]; map ex_seq [1; 2; 1]; map ex_seq [8; 5]], Ok tt).
Proof. vm_compute. repeat split. Qed.
