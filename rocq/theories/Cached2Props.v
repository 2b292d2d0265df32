(** C31: the sliding window dataset cache returns the right sequence. *)
From Coq Require Import Sorted.
From Verif Require Import Base ListLemmas Cached2Model Cached2Spec Cached2Proofs.
Local Open Scope nat_scope. Local Open Scope list_scope.

(** For every non-empty epoch, known or unknown number of sequences, and every history of calls with forward loads: asking whether an index exists is answered correctly, everything that is read is the right sequence, and all that was loaded since the last start can be read. *)
Theorem C31_right_answers : forall (A : Type) (seqs : list A) frames known ops, seqs <> [] -> forward_history seqs 0 ops ->
  right_answers seqs frames 0 0 ops (snd (calls seqs frames (init_seq_order seqs known) ops)).
Proof.
  intros A seqs frames known ops Hne Hf. assert (H : 0 < length seqs) by (destruct seqs; [contradiction|cbn; lia]). exact (proj1 (calls_lemma seqs frames H ops _ 0 0 0 (inv_init seqs frames known) (le_n _) H Hf)).
Qed.
Print Assumptions C31_right_answers.

(** Every sequence is produced at most once, and in increasing order. *)
Theorem C31_produced_once_in_order : forall (A : Type) (seqs : list A) frames known ops, seqs <> [] -> forward_history seqs 0 ops ->
  StronglySorted lt (filter (fun i => i <? length seqs) (collected (fst (calls seqs frames (init_seq_order seqs known) ops)))).
Proof.
  intros A seqs frames known ops Hne Hf. assert (H : 0 < length seqs) by (destruct seqs; [contradiction|cbn; lia]). destruct (proj2 (calls_lemma seqs frames H ops _ 0 0 0 (inv_init seqs frames known) (le_n _) H Hf)) as (lo&h&Hi&_). exact (v_sorted _ _ _ _ _ Hi).
Qed.
Print Assumptions C31_produced_once_in_order.

(** The number of frames of the epoch, once it is known, is that of all sequences if no load left one out. *)
Theorem C31_num_timesteps : forall (A : Type) (seqs : list A) frames known ops t, seqs <> [] -> forward_history seqs 0 ops -> no_gaps 0 ops ->
  get_num_timesteps (fst (calls seqs frames (init_seq_order seqs known) ops)) = Ok t -> t = list_sum (map frames seqs).
Proof.
  intros A seqs frames known ops t Hne Hf Hg. assert (H : 0 < length seqs) by (destruct seqs; [contradiction|cbn; lia]). destruct (proj2 (calls_lemma seqs frames H ops _ 0 0 0 (inv_init seqs frames known) (le_n _) H Hf)) as (lo&h&Hi&Hfull). specialize (Hfull (le_n _) eq_refl Hg).
  unfold get_num_timesteps. destruct (reached_final_seq _) eqn:E; [|discriminate]. cbn [assert_ bind]. intros [= <-]. rewrite (v_acc _ _ _ _ _ Hi), Hfull. pose proof (v_final _ _ _ _ _ Hi E) as Hh. rewrite Nat.min_r by exact Hh. f_equal. clear. unfold frames_at. induction seqs as [|x l IH] using rev_ind; [reflexivity|]. rewrite app_length. cbn [length]. rewrite seq_app, !map_app. f_equal.
  - rewrite <- IH. apply map_ext_in. intros i Hi. apply in_seq in Hi. rewrite nth_error_app1 by lia. reflexivity.
  - cbn [seq map]. rewrite nth_error_app2 by lia. rewrite Nat.add_0_l, Nat.sub_diag. reflexivity.
Qed.
Print Assumptions C31_num_timesteps.

(** If a load leaves sequences out, the reported number of frames is too small. *)
Theorem C31_num_timesteps_gap_refuted : exists (seqs : list nat) ops t, forward_history seqs 0 ops /\
  get_num_timesteps (fst (calls seqs (fun n => n) (init_seq_order seqs false) ops)) = Ok t /\ t < list_sum seqs.
Proof. exists [5; 6; 7], [Load 0 1; Load 2 3; IsLess 3], 12. cbn. repeat split; lia. Qed.
Print Assumptions C31_num_timesteps_gap_refuted.

(** For an empty epoch with unknown number of sequences, asking for the first index fails instead of answering no. *)
Theorem C31_empty_epoch_refuted : forall (A : Type) frames, snd (calls (@nil A) frames (init_seq_order [] false) [IsLess 0]) = [ABool (Err AssertionError)].
Proof. reflexivity. Qed.
Print Assumptions C31_empty_epoch_refuted.

(** After a load that starts behind the end, the answers are wrong: indices behind the end are said to exist, for every dataset. *)
Theorem C31_load_behind_end_refuted : forall (A : Type) (seqs : list A) frames known,
  snd (calls seqs frames (init_seq_order seqs known) [Load (S (length seqs)) (S (length seqs)); IsLess (length seqs)]) = [ADone (Ok tt); ABool (Ok true)].
Proof.
  intros A seqs frames known. cbn [calls call]. unfold load_seqs. destruct (Nat.leb_spec (S (length seqs)) (S (length seqs))); [|lia]. cbn [assert_ bind].
  destruct (load_inv seqs frames _ 0 0 (S (length seqs)) (S (length seqs)) (inv_init seqs frames known) (Nat.le_0_l _)) as (s'&->&Hi&_). unfold is_less_than_num_seqs. rewrite (v_lo _ _ _ _ _ Hi). destruct (Nat.ltb_spec (length seqs) (S (length seqs))); [reflexivity|lia].
Qed.
Print Assumptions C31_load_behind_end_refuted.

Example C31_run : snd (calls [5; 6; 7; 8] (fun n => n) (init_seq_order [5; 6; 7; 8] false) [IsLess 0; Load 0 2; GetData 1; GetLength 2; Load 1 2; GetData 0; GetData 2; IsLess 3; IsLess 4; GetNumTimesteps; GetData 3])
  = [ABool (Ok true); ADone (Ok tt); AData (Ok 6); ANum (Ok 7); ADone (Ok tt); AData (Err OtherException); AData (Ok 7); ABool (Ok true); ABool (Ok false); ANum (Ok 26); AData (Ok 8)].
Proof. reflexivity. Qed.
Example C31_hyp : forward_history [5; 6; 7; 8] 0 [IsLess 0; Load 0 2; GetData 1; GetLength 2; Load 1 2; IsLess 4] /\ no_gaps 0 [Load 0 2; Load 1 2; Load 2 4].
Proof. cbn. repeat split; lia. Qed.
