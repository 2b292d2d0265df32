(** The cache of HDF datasets. *)
From Coq Require Import Permutation.
From Verif Require Import Base ListLemmas AllocModel AllocSpec AllocProofs.

(** C64: over any number of epochs with any allowed orders, each order is taken as it is, ... *)
Theorem C64_order : forall (F : Type) (zero : F) corpus limit free d order,
  history zero corpus limit free d -> allowed d order ->
  exists d', init_order zero corpus limit order d = Ok d' /\ current d' = order.
Proof.
  intros F zero corpus limit free d order Hd Hal. destruct (order_ok zero corpus limit d order (history_ok zero corpus limit free d Hd) Hal) as (d' & E & _ & H). exists d'. auto.
Qed.
Print Assumptions C64_order.

(** ... and after [load_seqs(start, end)] the frames of each of these sequences are those of the file. *)
Theorem C64_data : forall (F : Type) (zero : F) corpus limit free d start end_,
  history zero corpus limit free d -> (start <= end_ <= length (current d))%nat ->
  exists d', d_load zero corpus start end_ d = Ok d' /\ current d' = current d /\
    forall i, (start <= i < end_)%nat -> d_get corpus d' i = Ok (corpus (nth i (current d) 0%nat)).
Proof.
  intros F zero corpus limit free d start end_ Hd Hse. unfold current in Hse. rewrite map_length in Hse.
  destruct (dload_ok zero corpus d start end_ (history_ok zero corpus limit free d Hd) ltac:(lia) ltac:(lia)) as (d' & E & _ & H1 & H2). exists d'. rewrite <- H1. auto.
Qed.
Print Assumptions C64_data.

(** An order without sequences is refused, if the start cache has any sequence. *)
Theorem C64_empty : forall (F : Type) (zero : F) corpus limit free d,
  history zero corpus limit free d -> d_index d <> [] -> k_at_start (d_cache d) <> 0%nat -> init_order zero corpus limit [] d = Err AssertionError.
Proof.
  intros F zero corpus limit free d _ Hne Hk. unfold init_order. destruct (d_index d) as [|r l]; [contradiction|].
  cbn [same_order length]. destruct (Nat.eqb_spec (k_at_start (d_cache d)) 0); [contradiction|]. reflexivity.
Qed.
Print Assumptions C64_empty.
(** The full statement, for any orders, is false: the next partition of the data has as many sequences as the start cache, but
    they are others. *)
Theorem C64_partition_refuted : exists (corpus : nat -> list nat) limit free d order,
  history 0%nat corpus limit free d /\ current d = [0; 1]%nat /\ order = [2; 3]%nat /\ init_order 0%nat corpus limit order d = Err KeyError.
Proof.
  exists (fun r => [r]), 10%nat, 10%nat. eexists. exists [2; 3]%nat. split; [|split; [|split; [reflexivity|]]].
  - eapply (h_order _ _ _ _ _ [0; 1]%nat); [apply h_new| |vm_compute; reflexivity]. split; [discriminate|]. intros H. discriminate H.
  - vm_compute. reflexivity.
  - vm_compute. reflexivity.
Qed.
Print Assumptions C64_partition_refuted.
(** Also with a part of the last order: the load succeeds, but the data are not there. *)
Theorem C64_subset_refuted : exists (corpus : nat -> list nat) limit free d order d1 d2,
  history 0%nat corpus limit free d /\ init_order 0%nat corpus limit order d = Ok d1 /\ current d1 = order /\
  d_load 0%nat corpus 0 1 d1 = Ok d2 /\ d_get corpus d2 0 = Err AssertionError.
Proof.
  exists (fun r => [r]), 2%nat, 0%nat. eexists. exists [2; 3]%nat. eexists. eexists. split; [|split; [|split; [|split]]].
  - eapply (h_order _ _ _ _ _ [0; 1; 2; 3]%nat); [apply h_new| |vm_compute; reflexivity]. split; [discriminate|]. intros H. discriminate H.
  - vm_compute. reflexivity.
  - vm_compute. reflexivity.
  - vm_compute. reflexivity.
  - vm_compute. reflexivity.
Qed.
Print Assumptions C64_subset_refuted.

(** C65: the start cache has the longest begin of the order that fits. *)
Theorem C65_start_cache : forall (F : Type) (zero : F) N data limit free, (0 < N)%nat ->
  exists st, init_cache zero N data (fun i => i) limit free = Ok st /\ cache_ok zero N data st /\
    (forall j, covered (k_alloc st) j <-> (j < k_at_start st)%nat) /\ (k_at_start st <= N)%nat /\
    (frames data (fun i => i) 0 (k_at_start st) <= limit)%nat /\
    (k_at_start st = N \/ (limit < frames data (fun i => i) 0 (S (k_at_start st)))%nat).
Proof.
  intros F zero N data limit free HN. destruct (init_ok zero N data (fun i => i) limit free HN) as (st & E & Hok & Ec & Hcov & _). exists st. split; [exact E|]. split; [exact Hok|]. split; [exact Hcov|].
  pose proof (start_cache_max N data (fun i => i) limit N 0 0 ltac:(lia) ltac:(lia) ltac:(lia)) as H. cbn zeta in H. rewrite <- Ec in H. tauto.
Qed.
Print Assumptions C65_start_cache.
(** All states of a dataset with an order have such a cache. *)
Theorem C65_reachable : forall (F : Type) (zero : F) corpus limit free d, history zero corpus limit free d -> d_index d <> [] ->
  cache_ok zero (length (d_index d)) (frames_of corpus (d_index d)) (d_cache d).
Proof. intros F zero corpus limit free d Hd Hne. destruct (history_ok zero corpus limit free d Hd) as [(H & _)|(H & _)]; [contradiction|exact H]. Qed.
Print Assumptions C65_reachable.
(** A load that is not in the cache keeps just the start cache, the range, and as many sequences after it as the free frames
    allow. *)
Theorem C65_prefetch : forall (F : Type) (zero : F) N data imap st start end_,
  cache_ok zero N data st -> (start <= end_ <= N)%nat ->
  exists st', load_seqs zero N data imap start end_ st = Ok st' /\ cache_ok zero N data st' /\ k_at_start st' = k_at_start st /\
    (forall j, (start <= j < end_)%nat -> covered (k_alloc st') j) /\
    (st' = st \/ exists e', (end_ <= e' <= N)%nat /\ (forall j, covered (k_alloc st') j <-> (j < k_at_start st \/ start <= j < e')%nat) /\
       (frames data imap end_ e' + k_free st' = k_free st + extra_frames N data (k_at_start st) (k_alloc st))%nat /\
       (e' = N \/ (k_free st' < length (data (imap e')))%nat)).
Proof.
  intros F zero N data imap st start end_ Hok Hse. destruct (load_ok zero N data imap st start end_ Hok ltac:(lia) ltac:(lia)) as (st' & E & H1 & H2 & H3 & H4). exists st'. auto.
Qed.
Print Assumptions C65_prefetch.
(** So each such load adds the frames that were asked for to the frames in the cache and the free frames together. *)
Theorem C65_budget : forall (F : Type) (zero : F) N data st start end_ st',
  cache_ok zero N data st -> (k_at_start st <= start <= end_)%nat -> (end_ <= N)%nat ->
  load_seqs zero N data (fun i => i) start end_ st = Ok st' -> st' <> st ->
  (extra_frames N data (k_at_start st') (k_alloc st') + k_free st' =
     extra_frames N data (k_at_start st) (k_alloc st) + k_free st + frames data (fun i => i) start end_)%nat.
Proof.
  intros F zero N data st start end_ st' Hok Hse HeN E Hne. destruct (load_ok zero N data (fun i => i) st start end_ Hok ltac:(lia) HeN) as (st2 & E2 & H1 & H2 & H3 & [H4|(e' & B & Hcov & Hfr & _)]); [congruence|].
  rewrite E in E2. injection E2 as <-. rewrite H3. rewrite (extra_range N data (k_alloc st') (k_at_start st) start e') by (try exact Hcov; lia). rewrite (frames_split data (fun i => i) start end_ e') by lia. lia.
Qed.
Print Assumptions C65_budget.
(** The full statement, that the frames outside the start cache never exceed the configured number, is false: it is
    passed by more and more. *)
Theorem C65_limit_refuted : exists (corpus : nat -> list nat) limit free d,
  history 0%nat corpus limit free d /\
  (extra_frames (length (d_index d)) (frames_of corpus (d_index d)) (k_at_start (d_cache d)) (k_alloc (d_cache d)) > 3 * free)%nat.
Proof.
  exists (fun r => [r]), 0%nat, 1%nat. eexists. split.
  - eapply (h_load _ _ _ _ _ 9 10); [eapply (h_load _ _ _ _ _ 5 6); [eapply (h_load _ _ _ _ _ 2 3); [eapply (h_load _ _ _ _ _ 0 1); [eapply (h_order _ _ _ _ _ (seq 0 20)); [apply h_new| |vm_compute; reflexivity]| |vm_compute; reflexivity]| |vm_compute; reflexivity]| |vm_compute; reflexivity]| |vm_compute; reflexivity].
    all: try (cbn; lia). split; [discriminate|]. intros H. discriminate H.
  - vm_compute. lia.
Qed.
Print Assumptions C65_limit_refuted.

(** C66: in any interleaving of one [load_seqs] with its background thread: never a deadlock, and when [load_seqs] has
    returned, the data of the range are those of the file. *)
Theorem C66_one_load : forall (F : Type) (zero : F) N data imap start end_ st m ts st',
  cache_ok zero N data st -> (start <= end_ <= N)%nat -> psteps zero N data imap (MLoad start end_, [], st) (m, ts, st') ->
  ((exists y, pstep zero N data imap (m, ts, st') y) \/ m = MReturned start end_ /\ (ts = [] \/ ts = [TDone])) /\
  (m = MReturned start end_ -> forall i, (start <= i < end_)%nat -> get_input_data data (fun j => j) (k_alloc st') i = Ok (data i)).
Proof. intros F zero N data imap start end_ st m ts st' Hok Hse. apply one_thread_data; [exact Hok|lia|lia]. Qed.
Print Assumptions C66_one_load.
(** The full statement, also while the thread for the start cache runs, is false: [load_seqs] returns and the data are silently
    zero. *)
Theorem C66_start_cache_refuted : exists (data : nat -> list nat) c st',
  psteps 0%nat 2 data (fun i => i) (MLoad 0 1, [TLoad 0 c], fresh 0%nat 2 0 c) (MReturned 0 1, [TMark [] [0; 1]%nat; TFill []], st') /\
  get_input_data data (fun j => j) (k_alloc st') 0 = Ok [0%nat] /\ data 0%nat = [7%nat].
Proof.
  exists (fun _ => [7%nat]), 2%nat. eexists. split.
  - eapply psteps_cons; [eapply (pstep_thread _ _ _ _ _ _ _ 0); [reflexivity|vm_compute; reflexivity]|]. cbn [firstn skipn app].
    eapply psteps_cons; [eapply pstep_main; vm_compute; reflexivity|].
    eapply psteps_cons; [eapply (pstep_thread _ _ _ _ _ _ _ 1); [reflexivity|vm_compute; reflexivity]|]. cbn [firstn skipn app].
    eapply psteps_cons; [eapply (pstep_thread _ _ _ _ _ _ _ 1); [reflexivity|vm_compute; reflexivity]|]. cbn [firstn skipn app].
    eapply psteps_cons; [eapply pstep_main; vm_compute; reflexivity|]. apply psteps_refl.
  - split; reflexivity.
Qed.
Print Assumptions C66_start_cache_refuted.

(** A concrete history: two epochs, all sequences in the start cache, then another order. *)
Example C64_ex : exists d, history 0%nat (fun r => repeat r (S r)) 100 5 d /\ current d = [2; 0; 1]%nat /\ k_at_start (d_cache d) = 3%nat /\
  d_get (fun r => repeat r (S r)) d 0 = Ok [2; 2; 2]%nat.
Proof.
  eexists. split; [|split; [|split]].
  - eapply (h_order _ _ _ _ _ [2; 0; 1]%nat); [eapply (h_order _ _ _ _ _ [0; 1; 2]%nat); [apply h_new| |vm_compute; reflexivity]| |vm_compute; reflexivity]; (split; [discriminate|]); intros H; [discriminate H|].
    cbn [d_index]. apply (Permutation_app_comm [2%nat] [0; 1]%nat).
  - vm_compute. reflexivity.
  - vm_compute. reflexivity.
  - vm_compute. reflexivity.
Qed.
(** A small start cache: sequences 0 and 1; then 3 is loaded, and 4 fits too. *)
Example C65_ex : exists d, history 0%nat (fun r => [r; r]) 5 3 d /\ k_at_start (d_cache d) = 2%nat /\
  map (coveredb (k_alloc (d_cache d))) (seq 0 6) = [true; true; false; true; true; false] /\ k_free (d_cache d) = 1%nat /\
  d_get (fun r => [r; r]) d 3 = Ok [3; 3]%nat.
Proof.
  eexists. split; [|split; [|split; [|split]]].
  - eapply (h_load _ _ _ _ _ 3 4); [eapply (h_order _ _ _ _ _ (seq 0 6)); [apply h_new| |vm_compute; reflexivity]| |vm_compute; reflexivity]; [split; [discriminate|intros H; discriminate H]|cbn; lia].
  - vm_compute. reflexivity.
  - vm_compute. reflexivity.
  - vm_compute. reflexivity.
  - vm_compute. reflexivity.
Qed.
