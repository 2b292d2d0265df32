(** C91: relative positions in self-attention. *)
From Verif Require Import Base ListLemmas TensorModel TensorSpec TensorProofs MatmulModel MatmulSpec MatmulProofs ReshapeModel ReshapeSpec ReshapeProofs RelPosModel RelPosSpec RelPosProofs.
Local Open Scope nat_scope.

(** The shift by padding and reshaping gives each query and key the entry of their distance. *)
Theorem C91_shift : forall size x axis pos hist padded cut, shiftable size x axis pos hist padded cut ->
  exists r, rel_shift size x axis pos hist padded cut = Ok r /\ by_distance size x axis pos hist r.
Proof.
  intros size x axis pos hist padded cut (Hw & Ha & Hp & Hap & Hph & HQ & HP & Hf & H1 & H2). apply shift_ok; try assumption; apply Hf; cbn; auto.
Qed.
Print Assumptions C91_shift.

(** In a single step there is nothing to shift. *)
Theorem C91_single_step : forall size x axis pos hist padded cut, d_base pos = d_base hist -> rel_shift size x axis pos hist padded cut = Ok x.
Proof. intros size x axis pos hist padded cut H. unfold rel_shift. rewrite (proj2 (deq_eq pos hist) H). reflexivity. Qed.
Print Assumptions C91_single_step.

(** With the relative positions as they are made for a sequence, the score of query [t] and key [s] is the one of the relative
    position s - t, or s - (t + offset). *)
Theorem C91_scores : forall size x axis pos hist padded cut offset score, shiftable size x axis pos hist padded cut ->
  scores_of size x pos (make_indices (size (d_base axis)) (size (d_base hist)) offset) score -> independent pos score ->
  exists r, rel_shift size x axis pos hist padded cut = Ok r /\
    forall env, inside size env (dims r) ->
      value r env = score env (Z.of_nat (env (d_base hist)) - (Z.of_nat (env (d_base axis)) + match offset with Some o => o | None => 0 end))%Z.
Proof.
  intros size x axis pos hist padded cut offset score Hx Hs Hi. destruct (C91_shift _ _ _ _ _ _ _ Hx) as (r & E & Hr). exists r. split; [exact E|]. intros env He.
  destruct Hx as (Hw & Ha & Hp & Hap & Hph & HQ & HP & _).
  rewrite (distance_score size x axis pos hist r _ score (match offset with Some o => o | None => 0 end)%Z Hw Ha Hp Hap HQ HP Hr Hs Hi); [f_equal; lia| |exact He].
  intros i Hlt. rewrite HP in Hlt. destruct offset as [o|]; [apply indices_offset_nth; assumption|]. rewrite indices_nth by assumption. lia.
Qed.
Print Assumptions C91_scores.

(** In a single step the query is the last one of the [n] positions: the same score as for the whole sequence. *)
Theorem C91_step_scores : forall size x axis pos hist padded cut score, d_base pos = d_base hist -> In (d_base pos) (bases (dims x)) ->
  scores_of size x pos (make_indices_step (size (d_base hist)) (size (d_base hist))) score ->
  exists r, rel_shift size x axis pos hist padded cut = Ok r /\
    forall env, inside size env (dims r) -> value r env = score env (Z.of_nat (env (d_base hist)) - (Z.of_nat (size (d_base hist)) - 1))%Z.
Proof.
  intros size x axis pos hist padded cut score Hph Hp Hs. exists x. split; [apply C91_single_step, Hph|]. intros env He. rewrite (Hs env He). rewrite Hph, step_nth; [reflexivity|].
  rewrite <- Hph. unfold inside in He. rewrite Forall_forall in He. apply He, Hp.
Qed.
Print Assumptions C91_step_scores.

(** The learned encoding: never outside of the table, and far positions get the first or last row. *)
Theorem C91_learned : forall {A} (table : list A) (d : A) clipping causal l, length table = num_rows clipping causal ->
  learned_encoding table clipping causal l = Ok (map (fun i => nth (row_for clipping causal i) table d) l) /\ forall i, row_for clipping causal i < length table.
Proof. intros A table d clipping causal l Hl. split; [apply learned_ok, Hl|]. intros i. rewrite Hl. apply row_for_lt. Qed.
Print Assumptions C91_learned.

(** The full matrix has the same rows by distance. *)
Theorem C91_full_matrix : forall {A} (table : list A) (d : A) clipping causal q kv o, length table = num_rows clipping causal ->
  exists m, full_matrix table clipping causal q kv (Some o) = Ok m /\ length m = q /\
    forall t s, t < q -> s < kv -> nth_error (nth t m []) s = Some (nth (row_for clipping causal (Z.of_nat s - (Z.of_nat t + o))) table d).
Proof.
  intros A table d clipping causal q kv o Hl. eexists. split; [apply (full_ok table d), Hl|]. split; [rewrite map_length, seq_length; reflexivity|]. intros t s Ht Hs.
  set (f := fun t => map (fun s => nth (row_for clipping causal (Z.of_nat s - Z.of_nat t - o)) table d) (seq 0 kv)). rewrite (nth_indep (map f (seq 0 q)) [] (f 0)) by (rewrite map_length, seq_length; exact Ht).
  rewrite (map_nth f), seq_nth by exact Ht. unfold f. rewrite nth_error_map, nth_error_seq by exact Hs. cbn. do 3 f_equal. lia.
Qed.
Print Assumptions C91_full_matrix.

Theorem C91_full_matrix_step : forall {A} (table : list A) (d : A) clipping causal n, length table = num_rows clipping causal ->
  full_matrix_step table clipping causal n = learned_encoding table clipping causal (make_indices_step n n).
Proof. intros A table d clipping causal n Hl. rewrite (full_step_ok table d), (learned_ok table d) by exact Hl. unfold make_indices_step. rewrite map_map. reflexivity. Qed.
Print Assumptions C91_full_matrix_step.

(** The full matrix for a sequence fails without an offset, although None is the default. *)
Theorem C91_default_offset_refuted : forall {A} (table : list A) clipping causal q kv, is_ok (full_matrix table clipping causal q kv None) = false.
Proof. reflexivity. Qed.
Print Assumptions C91_default_offset_refuted.

(** Examples: two sequences, three queries, two keys, so four relative positions -2 to 1. *)
Definition ex_dim (n : nat) : dim := {| d_base := n; d_copy := 0; d_prio := 0 |}.
Definition ex_size (d : nat) : nat := nth d [2; 3; 4; 2; 5; 4] 0.
Definition ex_x : tensor := {| dims := [ex_dim 0; ex_dim 1; ex_dim 2]; traw := tabulate [2; 3; 4] (fun i => match i with [b; t; p] => (Z.of_nat b * 1000 + Z.of_nat t * 100 + (Z.of_nat p - 2))%Z | _ => 0%Z end) |}.
Example C91_ex_hyp : shiftable ex_size ex_x (ex_dim 1) (ex_dim 2) (ex_dim 3) (ex_dim 4) (ex_dim 5).
Proof.
  split; [split; [reflexivity|split; [reflexivity|repeat constructor; cbn; intuition discriminate]]|]. split; [cbn; auto|]. split; [cbn; auto|]. split; [discriminate|]. split; [discriminate|]. split; [cbn; lia|]. split; [reflexivity|].
  split; [intros d [<-|[<-|[<-|[]]]]; cbn; intuition discriminate|]. split; reflexivity.
Qed.
Example C91_ex : option_map (fun t => (bases (dims t), data (traw t))) (match rel_shift ex_size ex_x (ex_dim 1) (ex_dim 2) (ex_dim 3) (ex_dim 4) (ex_dim 5) with Ok r => Some r | _ => None end) =
  Some ([0; 1; 3], [0; 1; 99; 100; 198; 199; 1000; 1001; 1099; 1100; 1198; 1199]%Z).
Proof. reflexivity. Qed.
Example C91_ex_scores : scores_of ex_size ex_x (ex_dim 2) (make_indices 3 2 None) (fun env i => (Z.of_nat (env 0%nat) * 1000 + Z.of_nat (env 1%nat) * 100 + i)%Z).
Proof.
  intros env H. unfold inside in H. cbn in H. inversion H as [|? ? H0 H']; subst. inversion H' as [|? ? H1 H'']; subst. inversion H'' as [|? ? H2 _]; subst. cbn in H0, H1, H2.
  unfold value. cbn [bases map dims ex_x ex_dim d_base].
  destruct (env 0) as [|[|]]; [| |lia]; (destruct (env 1) as [|[|[|]]]; [| | |lia]); (destruct (env 2) as [|[|[|[|]]]]; [| | | |lia]); reflexivity.
Qed.
Example C91_ex_indices : make_indices 3 2 None = [-2; -1; 0; 1]%Z /\ make_indices_step 3 3 = [-2; -1; 0]%Z.
Proof. split; reflexivity. Qed.
Example C91_ex_learned : learned_encoding [10; 11; 12; 13; 14]%Z 2 false [-5; -2; -1; 0; 1; 7]%Z = Ok [10; 10; 11; 12; 13; 14]%Z.
Proof. reflexivity. Qed.
