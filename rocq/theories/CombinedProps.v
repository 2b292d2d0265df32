(** C28: a combined dataset. *)
From Coq Require Import String.
From Verif Require Import Base ListLemmas PyDict SeqOrderModel SeqOrderSpec CombinedModel CombinedSpec CombinedProofs.
Local Open Scope string_scope. Local Open Scope nat_scope. Local Open Scope list_scope.
Local Notation length := List.length.
Local Notation concat := List.concat.

(** For every joint order (any list of indices into the concatenation of the sub-datasets, repetitions allowed): position [k] of the epoch is the sequence which the order selects. Each sub-dataset is given the order of its own sequences. *)
Theorem C28_positions corpus order : Forall (fun s => s < length (all_seqs corpus)) order -> exists tbl orders used, init_known corpus order = Ok (tbl, orders, used) /\
  length tbl = length order /\ used = map (@length nat) orders /\ length orders = length corpus /\
  (forall k s x, nth_error order k = Some s -> nth_error (all_seqs corpus) s = Some x -> at_position tbl orders k = Ok x) /\
  (forall d, d < length corpus -> nth d orders [] = of_dataset d (map (fun s => nth s (all_seqs corpus) (0, 0)) order)).
Proof.
  intros H. unfold all_seqs in H. rewrite all_seqs_len in H. destruct (init_known_ok corpus order H) as (t&o&H1&H2&H3&H4&H5&H6). exists t, o, (map (@length nat) o). split; [exact H1|]. split; [exact H5|]. split; [reflexivity|]. split; [exact H2|]. split; [|exact H3]. intros k s x Hk Hx. rewrite (H6 k s Hk). f_equal. unfold item. now apply nth_error_nth2.
Qed.
Print Assumptions C28_positions.
(** Loading the positions [a, b) loads from each sub-dataset exactly the sequences needed, each of these, and with start indices that never go back. *)
Theorem C28_loading corpus order tbl orders used a b a' b' : Forall (fun s => s < length (all_seqs corpus)) order -> init_known corpus order = Ok (tbl, orders, used) ->
  let m := length corpus in
  (forall d j, In (d, j) (pyslice tbl a b) -> exists lo hi, In (d, (lo, hi)) (load_ranges m tbl a b) /\ lo <= j < hi) /\
  (forall d lo hi j, In (d, (lo, hi)) (load_ranges m tbl a b) -> lo <= j < hi -> In (d, j) (pyslice tbl a b)) /\
  (forall d lo hi lo' hi', a <= a' -> In (d, (lo, hi)) (load_ranges m tbl a b) -> In (d, (lo', hi')) (load_ranges m tbl a' b') -> lo <= lo').
Proof.
  intros H E m. unfold all_seqs in H. rewrite all_seqs_len in H. destruct (known_loop corpus order H (repeat [] (length corpus)) (repeat_length _ _)) as (t0&o0&_&_&_&_&_&Hfst&_). destruct (init_known_ok corpus order H) as (t&o&H1&H2&H3&H4&H5&H6). rewrite E in H1. injection H1 as -> -> _.
  assert (Hseq : forall d, d < m -> exists n, of_dataset d t = seq 0 n) by (intros d Hd; eexists; apply H4; exact Hd). split; [|split].
  - intros d j Hi. apply load_range_ex; [exact Hseq| |exact Hi]. apply In_pyslice in Hi. apply In_nth_error in Hi. destruct Hi as (k&Hk). assert (Hkl : k < length order) by (rewrite <- H5; apply nth_error_Some; congruence). destruct (nth_error order k) as [s|] eqn:Es; [|apply nth_error_None in Es; lia]. specialize (H6 k s Es). unfold at_position, pyget in H6. rewrite Hk in H6. cbn [bind fst] in H6. destruct (nth_error o d) eqn:Eo; [|discriminate]. unfold m. rewrite <- H2. apply nth_error_Some. congruence.
  - intros d lo hi j Hi Hj. destruct (load_range_spec _ _ _ _ _ _ _ Hseq Hi) as (_&Es&Hlt&_). apply In_of_dataset. rewrite Es. apply in_seq. lia.
  - intros d lo hi lo' hi' Ha. eapply load_range_mono; eassumption.
Qed.
Print Assumptions C28_loading.

(** random_dataset: one joint order for the full epoch, whatever the shuffle. It has every sequence once, and those of a dataset in that dataset's order. The sub-epochs and shards are its pieces (see C01). *)
Theorem C28_random_dataset shuffle corpus : (forall l, Permutation (shuffle l) l) -> exists order,
  (forall part epoch shards shard rep, random_dataset_order shuffle (map (@length nat) corpus) part epoch shards shard rep = let* o := apply_partition_epoch_and_sharding order part (Some epoch) shards shard in Ok (concat (repeat o rep))) /\
  Permutation order (seq 0 (length (all_seqs corpus))) /\
  forall d, d < length corpus -> of_dataset d (map (fun s => nth s (all_seqs corpus) (0, 0)) order) = nth d corpus [].
Proof. intros H. unfold all_seqs at 1. rewrite all_seqs_len. exact (random_dataset_spec shuffle corpus H). Qed.
Print Assumptions C28_random_dataset.

(** Fixed-size sampling: what is taken from a dataset with [n] sequences in the first [E] epochs is 0, 1, 2, … modulo [n]. *)
Theorem C28_sampling_is_cyclic size n E : 0 < n -> exists ls, mapM (fun e => sample_range e size n) (seq 1 E) = Ok ls /\ concat ls = map (fun i => i mod n) (seq 0 (E * size)).
Proof. apply sampling_cyclic. Qed.
Print Assumptions C28_sampling_is_cyclic.
(** The epoch consists of these samples of all datasets, rearranged by the sequence ordering. *)
Theorem C28_sampling_order sampling epoch ds remap : dict_ok sampling -> Permutation (map fst ds) (dkeys sampling) -> Forall (fun kn => 0 < snd kn) ds ->
  (forall n, exists r, remap n = Ok r /\ Permutation r (seq 0 n)) ->
  exists o, sampling_order sampling epoch ds remap = Ok o /\ Permutation o (expected_samples sampling epoch ds 0).
Proof.
  intros H1 H2 H3 Hr. unfold sampling_order. rewrite sample_buffer_ok by assumption. cbn [bind]. destruct (Hr (length (expected_samples sampling epoch ds 0))) as (r&->&Hp). cbn [bind]. now apply take_perm.
Qed.
Print Assumptions C28_sampling_order.

(** If the numbers of sequences are not known in advance, the table of positions is extended on demand. For every sequence of extensions by [is_less_than_num_seqs], for all true sizes, all (also wrong) estimates and all random choices: the table only grows at its end, it gives the sequences of each dataset in order without gaps, [is_less_than_num_seqs] tells the truth, and no sequence is left over at the end. *)
Definition start_state {G} (sizes : list nat) (est : list Z) (g : G) : state := St (repeat 0 (length sizes)) est [] g.
Inductive reachable {G} (choice_p : G -> list Z -> nat * G) (choice_list : G -> list nat -> nat * G) (sizes : list nat) (ordering : string) (fuel : nat) (s0 : state) : state -> Prop :=
| reach_start : reachable choice_p choice_list sizes ordering fuel s0 s0
| reach_step st n b st' : reachable choice_p choice_list sizes ordering fuel s0 st -> is_less_than_num_seqs choice_p choice_list sizes ordering fuel n st = Ok (b, st') -> reachable choice_p choice_list sizes ordering fuel s0 st'.
Lemma nth_repeat0 d n : nth d (repeat 0 n) 0 = 0.
Proof. revert n. induction d as [|d IH]; intros [|n]; cbn; auto. Qed.
Lemma some_has_more sizes : existsb (has_more sizes (repeat 0 (length sizes))) (seq 0 (num_ds sizes)) = (0 <? list_sum sizes).
Proof.
  unfold has_more, num_ds. apply eq_iff_eq_true. rewrite existsb_exists, Nat.ltb_lt. split.
  - intros (d&Hd&H). rewrite nth_repeat0 in H. apply Nat.ltb_lt in H. apply in_seq in Hd. clear - H. revert d H. unfold list_sum. induction sizes as [|a l IH]; intros [|d] H; cbn [nth fold_right] in *; try lia. specialize (IH d H). lia.
  - intros H. assert (G : exists d, d < length sizes /\ 0 < nth d sizes 0).
    { unfold list_sum in H. induction sizes as [|a l IH]; cbn [fold_right length] in *; [lia|]. destruct (Nat.eq_dec a 0) as [->|]; [destruct IH as (d&H1&H2); [lia|]; exists (S d); cbn; split; [lia|exact H2]|exists 0; cbn; lia]. }
    destruct G as (d&H1&H2). exists d. split; [apply in_seq; lia|]. rewrite nth_repeat0. now apply Nat.ltb_lt.
Qed.
Lemma start_inv {G} sizes est (g : G) : length est = length sizes -> inv sizes (start_state sizes est g).
Proof. intros H. unfold inv, start_state. cbn. rewrite repeat_length. split; [reflexivity|]. split; [exact H|]. split; intros d; rewrite nth_repeat0; [lia|reflexivity]. Qed.
Lemma sumrem_start {G} sizes est (g : G) : length est = length sizes -> sumrem (start_state sizes est g) = fold_right Z.add 0%Z est.
Proof. intros H. unfold sumrem, remaining, start_state. cbn. revert sizes H. induction est as [|e est IH]; intros [|s sizes] H; try discriminate; [reflexivity|]. cbn in *. rewrite IH by lia. lia. Qed.
Lemma less_inv {G} (cp : G -> list Z -> nat * G) cl sizes ordering fuel n st : choices_ok cp cl -> known_ordering ordering -> inv sizes st -> est_ok st \/ ordering <> "random_dataset" -> (Z.max 0 (sumrem st) < Z.of_nat fuel)%Z \/ ordering <> "random_dataset" ->
  exists b st' ext, is_less_than_num_seqs cp cl sizes ordering fuel n st = Ok (b, st') /\ inv sizes st' /\ tbl st' = tbl st ++ ext /\ (est_ok st' \/ ordering <> "random_dataset") /\ ((Z.max 0 (sumrem st') < Z.of_nat fuel)%Z \/ ordering <> "random_dataset") /\ (b = true -> n < length (tbl st')) /\ (b = false -> used st' = sizes /\ length (tbl st') <= n).
Proof.
  intros Hc Ho Hi He Hf. unfold is_less_than_num_seqs. destruct (Nat.ltb_spec n (length (tbl st))).
  - exists true, st, []. rewrite app_nil_r. split; [reflexivity|]. split; [exact Hi|]. split; [reflexivity|]. split; [exact He|]. split; [exact Hf|]. split; [auto|discriminate].
  - destruct (expand_spec cp cl sizes Hc ordering fuel (n - length (tbl st) + 1) Ho st Hi He Hf) as (b&st'&ext&E&I1&I2&I3&I4&I5&I6). exists b, st', ext. split; [exact E|]. split; [exact I1|]. split; [exact I2|]. split; [exact I3|]. split; [exact I4|]. rewrite I2, app_length. split; [intros Hb; rewrite (I5 Hb); lia|]. intros Hb. destruct (I6 Hb) as (L1&L2). split; [exact L1|lia].
Qed.
Lemma reach_inv {G} (cp : G -> list Z -> nat * G) cl sizes est g ordering fuel st : choices_ok cp cl -> known_ordering ordering -> length est = length sizes -> Forall (fun e => (0 <= e)%Z) est -> (fold_right Z.add 0 est < Z.of_nat fuel)%Z ->
  reachable cp cl sizes ordering fuel (start_state sizes est g) st -> inv sizes st /\ (est_ok st \/ ordering <> "random_dataset") /\ ((Z.max 0 (sumrem st) < Z.of_nat fuel)%Z \/ ordering <> "random_dataset").
Proof.
  intros Hc Ho Hl Hp Hf. induction 1 as [|st n b st' _ (I1&I2&I3) E].
  - split; [now apply start_inv|]. split; left.
    + intros d. unfold start_state. cbn. rewrite nth_repeat0. cbn. destruct (Nat.ltb_spec d (length est)); [|rewrite nth_overflow by lia; lia]. rewrite Forall_forall in Hp. apply Hp. now apply nth_In.
    + rewrite sumrem_start by exact Hl. assert (0 <= fold_right Z.add 0 est)%Z; [|lia]. clear - Hp. induction Hp; cbn; lia.
  - destruct (less_inv cp cl sizes ordering fuel n st Hc Ho I1 I2 I3) as (b'&s'&ext&E'&J1&_&J3&J4&_). rewrite E in E'. injection E' as <- <-. auto.
Qed.
Theorem C28_unknown_sizes {G} (choice_p : G -> list Z -> nat * G) choice_list sizes est g ordering fuel st n :
  choices_ok choice_p choice_list -> In ordering ["default"; "reversed"; "random_dataset"] -> length est = length sizes -> Forall (fun e => (0 <= e)%Z) est -> (fold_right Z.add 0 est < Z.of_nat fuel)%Z ->
  reachable choice_p choice_list sizes ordering fuel (start_state sizes est g) st ->
  exists b st' ext, is_less_than_num_seqs choice_p choice_list sizes ordering fuel n st = Ok (b, st') /\ tbl st' = tbl st ++ ext /\
    b = (n <? list_sum sizes) /\
    (forall d, of_dataset d (tbl st') = seq 0 (length (of_dataset d (tbl st'))) /\ length (of_dataset d (tbl st')) <= nth d sizes 0) /\
    (b = true -> n < length (tbl st')) /\ (b = false -> forall d, of_dataset d (tbl st') = seq 0 (nth d sizes 0)).
Proof.
  intros Hc Ho Hl Hp Hf Hr. assert (Ho' : known_ordering ordering) by (unfold known_ordering; cbn in Ho; intuition congruence). destruct (reach_inv choice_p choice_list sizes est g ordering fuel st Hc Ho' Hl Hp Hf Hr) as (I1&I2&I3). destruct (less_inv choice_p choice_list sizes ordering fuel n st Hc Ho' I1 I2 I3) as (b&st'&ext&E&J1&J2&_&_&J5&J6). exists b, st', ext. split; [exact E|]. split; [exact J2|].
  destruct J1 as (A1&A2&A3&A4).
  assert (Hlen : length (tbl st') = list_sum (used st')).
  { assert (X : forall (t : list (nat * nat)) us, (forall d, of_dataset d t = seq 0 (nth d us 0)) -> length t = list_sum us).
    { clear. intros t us H. assert (Y : forall us k (t : list (nat * nat)), (forall s, In s t -> k <= fst s < k + length us) -> (forall d, length (of_dataset d t) = if d <? k then 0 else nth (d - k) us 0) -> length t = list_sum us).
      { clear. induction us as [|u us IH]; intros k t Hb Hd. - destruct t as [|x t]; [reflexivity|]. specialize (Hb x (or_introl eq_refl)). cbn in Hb. lia.
        - assert (Hpart : length t = length (of_dataset k t) + length (filter (fun s => negb (fst s =? k)) t)). { clear. unfold of_dataset. rewrite map_length. induction t as [|x t IH]; [reflexivity|]. cbn. destruct (fst x =? k); cbn; lia. }
          rewrite Hpart, Hd. rewrite Nat.ltb_irrefl, Nat.sub_diag. cbn [nth list_sum fold_right]. f_equal. apply (IH (S k)).
          + intros s Hs. apply filter_In in Hs. destruct Hs as (Hs&Hn). specialize (Hb s Hs). cbn [length] in Hb. destruct (Nat.eqb_spec (fst s) k); [discriminate|]. lia.
          + intros d. specialize (Hd d). destruct (Nat.eq_dec d k) as [-> |Hdk].
            * destruct (Nat.ltb_spec k (S k)); [|lia]. unfold of_dataset. rewrite map_length. clear. induction t as [|x t IH]; [reflexivity|]. cbn. destruct (fst x =? k) eqn:E; cbn; [exact IH|]. now rewrite E.
            * transitivity (length (of_dataset d t)). { unfold of_dataset. rewrite !map_length. clear - Hdk. induction t as [|x t IH]; [reflexivity|]. cbn. destruct (Nat.eqb_spec (fst x) k); cbn; destruct (Nat.eqb_spec (fst x) d); cbn; try lia; congruence. }
              rewrite Hd. destruct (Nat.ltb_spec d (S k)), (Nat.ltb_spec d k); try lia. replace (d - k) with (S (d - S k)) by lia. reflexivity. }
      apply (Y us 0 t).
      - intros [d j] Hs. cbn. split; [lia|]. apply In_of_dataset in Hs. rewrite H in Hs. destruct (Nat.ltb_spec d (length us)); [assumption|]. rewrite nth_overflow in Hs by lia. contradiction.
      - intros d. rewrite H, seq_length, Nat.sub_0_r. reflexivity. }
    apply X. exact A4. }
  assert (Hsum : list_sum (used st') <= list_sum sizes). { clear - A1 A3. revert A1 A3. generalize (used st'). intros us. revert sizes. induction us as [|u us IH]; intros [|s sizes] H1 H2; try discriminate; [cbn; lia|]. cbn. specialize (H2 0) as H0. cbn in H0. specialize (IH sizes ltac:(cbn in H1; lia) (fun d => H2 (S d))). unfold list_sum in *. lia. }
  split; [|split; [|split; [exact J5|]]].
  - destruct b; destruct (Nat.ltb_spec n (list_sum sizes)); try reflexivity; exfalso.
    + specialize (J5 eq_refl). lia.
    + destruct (J6 eq_refl) as (K1&K2). rewrite K1 in Hlen. lia.
  - intros d. rewrite A4, seq_length. split; [reflexivity|apply A3].
  - intros Hb d. destruct (J6 Hb) as (K1&_). now rewrite A4, K1.
Qed.
Print Assumptions C28_unknown_sizes.
(** In the default ordering the table is then the concatenation of the datasets (so every earlier table is a prefix of it). *)
Theorem C28_unknown_sizes_default {G} (choice_p : G -> list Z -> nat * G) choice_list sizes est g fuel st n st' :
  choices_ok choice_p choice_list -> length est = length sizes -> Forall (fun e => (0 <= e)%Z) est -> (fold_right Z.add 0 est < Z.of_nat fuel)%Z ->
  reachable choice_p choice_list sizes "default" fuel (start_state sizes est g) st ->
  is_less_than_num_seqs choice_p choice_list sizes "default" fuel n st = Ok (false, st') -> tbl st' = all_seqs (map (seq 0) sizes).
Proof.
  intros Hc Hl Hp Hf Hr E. assert (Ho : known_ordering "default") by now left.
  assert (Hin : forall s, reachable choice_p choice_list sizes "default" fuel (start_state sizes est g) s -> in_order sizes s).
  { induction 1 as [|s k b s' Hs IH Es]; [split; [constructor|intros ? ? ? []]|]. destruct (reach_inv choice_p choice_list sizes est g "default" fuel s Hc Ho Hl Hp Hf Hs) as (I1&_). unfold is_less_than_num_seqs in Es. destruct (k <? length (tbl s)); [injection Es as _ <-; exact IH|]. destruct (expand_default choice_p choice_list sizes Hc fuel (k - length (tbl s) + 1) s I1 IH) as (b2&s2&E2&I2). rewrite Es in E2. injection E2 as _ <-. exact I2. }
  destruct (reach_inv choice_p choice_list sizes est g "default" fuel st Hc Ho Hl Hp Hf Hr) as (I1&I2&I3). destruct (less_inv choice_p choice_list sizes "default" fuel n st Hc Ho I1 I2 I3) as (b&s'&ext&E'&J1&_&_&_&_&J6). rewrite E in E'. injection E' as <- <-. apply default_all; [exact J1| |apply J6; reflexivity]. apply Hin. eapply reach_step; eassumption.
Qed.
Print Assumptions C28_unknown_sizes_default.

(** The data of a sequence: what the data map says for its dataset, empty for all other keys. *)
Theorem C28_data_keys {X} data_map dk (get : string -> list X) key :
  (forall sub, In ((dk, sub), key) data_map -> (forall sub', In ((dk, sub'), key) data_map -> sub' = sub) -> get_data data_map dk get key = get sub) /\
  ((forall sub, ~ In ((dk, sub), key) data_map) -> get_data data_map dk get key = []).
Proof. split; [intros; now apply get_data_some|apply get_data_none]. Qed.
Print Assumptions C28_data_keys.

(** Findings. Two data keys of one dataset mapped to the same key: the first one is silently dropped. *)
Theorem C28_data_map_conflict_refuted : exists data_map (get : string -> list nat), In (("d", "a"), "data") data_map /\ get "a" <> [] /\ get_data data_map "d" get "data" <> get "a" /\ get_data data_map "d" get "data" = get "b".
Proof. exists [(("d", "a"), "data"); (("d", "b"), "data")], (fun k => if String.eqb k "a" then [1] else [2]). repeat split; try discriminate. now left. Qed.
Print Assumptions C28_data_map_conflict_refuted.
(** If the numbers of sequences are unknown, any other ordering is refused as soon as there is a sequence to deliver. *)
Theorem C28_unknown_sizes_other_ordering {G} (choice_p : G -> list Z -> nat * G) choice_list sizes est g ordering fuel n :
  ~ In ordering ["default"; "reversed"; "random_dataset"] ->
  is_less_than_num_seqs choice_p choice_list sizes ordering fuel n (start_state sizes est g) =
  if 0 <? list_sum sizes then Err OtherException else Ok (false, start_state sizes est g).
Proof.
  intros Ho. unfold is_less_than_num_seqs, start_state. cbn [tbl length]. change (n <? 0) with false. rewrite Nat.sub_0_r, Nat.add_1_r. cbn [expand]. unfold pick.
  destruct (String.eqb_spec ordering "default") as [->|_]; [exfalso; apply Ho; now left|]. destruct (String.eqb_spec ordering "reversed") as [->|_]; [exfalso; apply Ho; right; now left|]. destruct (String.eqb_spec ordering "random_dataset") as [->|_]; [exfalso; apply Ho; right; right; now left|].
  rewrite some_has_more. destruct (0 <? list_sum sizes); reflexivity.
Qed.
Print Assumptions C28_unknown_sizes_other_ordering.
(** A sampling size for a dataset which is not in use: the epoch gets that many copies of the very first sequence. *)
Theorem C28_sampling_unused_dataset_refuted : exists sampling ds, dict_ok sampling /\ incl (map fst ds) (dkeys sampling) /\ Forall (fun kn => 0 < snd kn) ds /\
  sampling_order sampling 1 ds (fun n => Ok (seq 0 n)) = Ok [0; 1; 0; 0; 0] /\ expected_samples sampling 1 ds 0 = [0; 1].
Proof. exists [("a", 2); ("b", 3)], [("a", 4)]. split; [apply NoDup_cons; [intros [E|[]]; discriminate|apply NoDup_cons; [intros []|constructor]]|]. split; [intros x [<-|[]]; now left|]. split; [repeat constructor|]. split; reflexivity. Qed.
Print Assumptions C28_sampling_unused_dataset_refuted.
(** Sampling fails for a dataset without sequences. *)
Theorem C28_sampling_empty_dataset_refuted : forall epoch size, sample_range epoch size 0 = Err ZeroDivisionError.
Proof. reflexivity. Qed.
Print Assumptions C28_sampling_empty_dataset_refuted.
(** No name of the reversed order works in both cases: 'reverse' is refused if the numbers of sequences are unknown, 'reversed' if they are known. *)
Theorem C28_reversed_name_refuted {G} (choice_p : G -> list Z -> nat * G) choice_list g R py_int :
  expand choice_p choice_list [2] "reverse" 5 1 (start_state [2] [2%Z] g) = Err OtherException /\
  is_ok (expand choice_p choice_list [2] "reversed" 5 1 (start_state [2] [2%Z] g)) = true /\
  is_ok (get_seq_order_for_epoch R py_int (plain_cfg "reverse" None 0) None (Some 1) 2) = true /\
  is_ok (get_seq_order_for_epoch R py_int (plain_cfg "reversed" None 0) None (Some 1) 2) = false.
Proof. repeat split. Qed.
Print Assumptions C28_reversed_name_refuted.

(** Examples: three datasets, the middle one empty; a joint order with repetitions. *)
Definition ex_corpus := [[7; 5]; []; [9; 8; 6]].
Example ex_all : all_seqs ex_corpus = [(0, 7); (0, 5); (2, 9); (2, 8); (2, 6)].
Proof. reflexivity. Qed.
Example ex_init : init_known ex_corpus [3; 0; 3; 2; 1] = Ok ([(2, 0); (0, 0); (2, 1); (2, 2); (0, 1)], [[7; 5]; []; [8; 8; 9]], [2; 0; 3]).
Proof. reflexivity. Qed.
Example ex_loads : load_ranges 3 [(2, 0); (0, 0); (2, 1); (2, 2); (0, 1)] 2 5 = [(0, (1, 2)); (2, (1, 3))].
Proof. reflexivity. Qed.
Example ex_random : random_dataset_order (@rev nat) [2; 0; 3] 1 1 1 0 1 = Ok [2; 3; 4; 0; 1].
Proof. reflexivity. Qed.
Example ex_choices : choices_ok (fun (g : nat) w => (match find (fun i => (0 <? nth i w 0)%Z) (seq 0 (length w)) with Some i => i | None => 0 end, g)) (fun g l => (hd 0 l, g)).
Proof.
  split.
  - intros g w (i&Hi). cbn. destruct (find _ _) as [j|] eqn:E; [apply find_some in E; destruct E as (_&E); now apply Z.ltb_lt|]. exfalso. destruct (Nat.ltb_spec i (length w)); [|rewrite nth_overflow in Hi by lia; lia]. pose proof (find_none _ _ E i) as H0. cbn in H0. assert (In i (seq 0 (length w))) by (apply in_seq; lia). specialize (H0 H1). apply Z.ltb_ge in H0. lia.
  - intros g [|x l] H; [contradiction|]. now left.
Qed.
(** wrong estimates, a random_dataset run to the end *)
Example ex_unknown : match is_less_than_num_seqs (fun (g : nat) w => (match find (fun i => (0 <? nth i w 0)%Z) (seq 0 (length w)) with Some i => i | None => 0 end, g)) (fun g l => (hd 0 l, g)) [2; 0; 1] "random_dataset" 9 5 (start_state [2; 0; 1] [1%Z; 3%Z; 0%Z] 0) with Ok (b, st) => (b, tbl st) | Err _ => (true, []) end = (false, [(0, 0); (0, 1); (2, 0)]).
Proof. reflexivity. Qed.
