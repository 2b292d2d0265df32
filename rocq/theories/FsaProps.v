(** Theorems about the automata of util/fsa.py. *)
From Verif Require Import Base ListLemmas FsaModel FsaSpec FsaProofs.
Local Open Scope Z_scope.

(** * C58: the CTC automaton *)
(** For each sequence there is exactly one path for every label string that becomes the targets by merging repeated
    labels and then dropping blanks, and no path for any other string. *)
Theorem C58_ctc_language : forall rows n_time lens blank f, Forall (fun r => length r = n_time) rows -> get_ctc_fsa rows n_time lens blank = Ok f ->
  length (f_start_end f) = length rows /\
  forall k row len, nth_error rows k = Some row -> nth_error lens k = Some len -> Forall (fun t => t <> blank) (firstn len row) ->
    forall xs, paths f k xs = exactly (list_eqb (firstn len row) (collapse blank xs)).
Proof. intros rows n_time lens blank f Hr H. apply (ctc_language _ _ _ _ _ Hr H). Qed.
Print Assumptions C58_ctc_language.
(** The automata of different sequences use different states. *)
Theorem C58_separate : forall rows n_time lens blank f, Forall (fun r => length r = n_time) rows -> get_ctc_fsa rows n_time lens blank = Ok f -> separate f.
Proof. intros rows n_time lens blank f Hr H. apply (ctc_language _ _ _ _ _ Hr H). Qed.
Print Assumptions C58_separate.
(** It is built whenever the lengths fit to the targets. *)
Theorem C58_total : forall rows n_time lens blank,
  length lens = length rows /\ Forall (fun n => (n <= n_time)%nat) lens <-> exists f, get_ctc_fsa rows n_time lens blank = Ok f.
Proof. exact ctc_ok. Qed.
Print Assumptions C58_total.
(** The condition is needed: for targets with a blank the automaton accepts strings, but they do not collapse to the targets. *)
Theorem C58_blank_in_targets_refuted : exists rows n_time lens blank f k row len xs, Forall (fun r => length r = n_time) rows /\
  get_ctc_fsa rows n_time lens blank = Ok f /\ nth_error rows k = Some row /\ nth_error lens k = Some len /\
  paths f k xs <> exactly (list_eqb (firstn len row) (collapse blank xs)).
Proof.
  exists [[1; 9; 2]], 3%nat, [3%nat], 9. eexists. exists 0%nat, [1; 9; 2], 3%nat, [1; 9; 2].
  split; [repeat constructor|]. split; [vm_compute; reflexivity|]. split; [reflexivity|]. split; [reflexivity|]. vm_compute. discriminate.
Qed.
Print Assumptions C58_blank_in_targets_refuted.

(** The targets of tests/test_TFNativeOp.py, test_ctc_fsa_batch4_len6_c8_native. *)
Definition test_rows : list (list Z) := [[1; 2; 4; 4; 1; 0]; [2; 6; 3; 4; 0; 0]; [3; 3; 0; 0; 0; 0]; [5; 0; 0; 0; 0; 0]].
Example C58_targets : exists f, get_ctc_fsa test_rows 6 [6; 4; 2; 1]%nat 7 = Ok f /\
  Forall (fun r => length r = 6%nat) test_rows /\ Forall (fun t => t <> 7) (firstn 6 [1; 2; 4; 4; 1; 0]) /\
  f_start_end f = [(0, 13); (14, 23); (24, 29); (30, 33)]%nat /\
  paths f 0 [1; 2; 4; 7; 4; 1; 0] = 1%nat /\ paths f 0 [1; 2; 4; 4; 1; 0] = 0%nat /\ paths f 2 [3; 7; 3] = 1%nat /\ paths f 2 [7; 3; 3; 7; 7; 3; 3; 7] = 1%nat /\
  paths f 2 [3; 3] = 0%nat /\ paths f 3 [7; 5; 5; 7] = 1%nat /\ paths f 3 [] = 0%nat.
Proof. eexists. split; [vm_compute; reflexivity|]. split; [repeat constructor|]. split; [repeat constructor; discriminate|]. vm_compute. repeat split. Qed.
(** No targets: only blanks. *)
Example C58_empty : exists f, get_ctc_fsa [[1]] 1 [0]%nat 7 = Ok f /\ paths f 0 [] = 1%nat /\ paths f 0 [7; 7] = 1%nat /\ paths f 0 [1] = 0%nat.
Proof. eexists. split; [vm_compute; reflexivity|]. vm_compute. repeat split. Qed.

(** * C59: the staircase automaton and the shared automaton *)
(** Without loops: exactly one path for each strictly increasing string of positions that obeys the limits. *)
Theorem C59_staircase : forall seqs f, staircase false seqs = Ok f -> length (f_start_end f) = length seqs /\
  forall k len m sm em, nth_error seqs k = Some (len, (m, sm, em)) ->
    forall ns, paths f k (map Z.of_nat ns) = exactly (stair_ok len (limit_at len (skip_of m) (skip_of sm) (skip_of em)) ns).
Proof.
  intros seqs f H. destruct (staircase_language _ _ _ H) as (_ & L & P). split; [exact L|]. intros k len m sm em E. apply (P k len m sm em E). reflexivity.
Qed.
Print Assumptions C59_staircase.
(** With loops and without limits: exactly one path for each non-decreasing string of positions. *)
Theorem C59_staircase_loop : forall seqs f, staircase true seqs = Ok f -> length (f_start_end f) = length seqs /\
  forall k len, nth_error seqs k = Some (len, (None, None, None)) -> forall ns, paths f k (map Z.of_nat ns) = exactly (loop_ok len ns).
Proof.
  intros seqs f H. destruct (staircase_language _ _ _ H) as (_ & L & P). split; [exact L|]. intros k len E. apply (P k len None None None E); reflexivity.
Qed.
Print Assumptions C59_staircase_loop.
(** Nothing but positions is emitted, and the automata of different sequences use different states. *)
Theorem C59_staircase_positions : forall loop seqs f, staircase loop seqs = Ok f ->
  separate f /\ forall k xs, paths f k xs <> O -> exists ns, xs = map Z.of_nat ns.
Proof.
  intros loop seqs f H. destruct (staircase_language _ _ _ H) as (S & L & P). split; [exact S|]. intros k xs Hp.
  destruct (nth_error seqs k) as [[len [[m sm] em]]|] eqn:E; [apply (proj1 (P k len m sm em E) xs Hp)|].
  exfalso. apply Hp. unfold paths. apply nth_error_None in E. rewrite <- L in E. apply nth_error_None in E. rewrite E. reflexivity.
Qed.
Print Assumptions C59_staircase_positions.
Theorem C59_staircase_total : forall loop seqs, Forall (fun q => (0 < fst q)%nat) seqs <-> exists f, staircase loop seqs = Ok f.
Proof. exact staircase_ok. Qed.
Print Assumptions C59_staircase_total.
(** The shared automaton: every sequence has the paths of the edges that were added, from state 0 to the last state. *)
Theorem C59_shared : forall l n, let f := get_fast_bw_fsa (shared_of l) n in
  separate f /\ length (f_start_end f) = n /\ forall k xs, (k < n)%nat -> paths f k xs = count_paths (map one_edge l) 0 xs (last_of l).
Proof. intros l n f. apply shared_language. reflexivity. Qed.
Print Assumptions C59_shared.
Theorem C59_inf_loop : forall l q n, add_inf_loop (shared_of l) q n = shared_of (l ++ map (fun x => (q, q, Z.of_nat x)) (seq 0 n)).
Proof. exact inf_loop_edges. Qed.
Print Assumptions C59_inf_loop.

(** tests/test_Fsa.py, test_fast_bw_fsa_staircase: the strings of the given length that have a path. *)
Fixpoint strings (n_classes n : nat) : list (list Z) :=
  match n with O => [[]] | S n => flat_map (fun c => map (cons (Z.of_nat c)) (strings n_classes n)) (seq 0 n_classes) end.
Definition accepted (loop : bool) (n_classes n : nat) : res (list (list Z)) :=
  let* f := staircase loop [(n_classes, (None, None, None))] in Ok (filter (fun xs => (paths f 0 xs =? 1)%nat) (strings n_classes n)).
Example C59_test_2_2 : accepted false 2 2 = Ok [[0; 1]]. Proof. vm_compute. reflexivity. Qed.
Example C59_test_2_2_loop : accepted true 2 2 = Ok [[0; 0]; [0; 1]; [1; 1]]. Proof. vm_compute. reflexivity. Qed.
Example C59_test_3_2 : accepted false 3 2 = Ok [[0; 1]; [0; 2]; [1; 2]]. Proof. vm_compute. reflexivity. Qed.
Example C59_test_3_2_loop : accepted true 3 2 = Ok [[0; 0]; [0; 1]; [0; 2]; [1; 1]; [1; 2]; [2; 2]]. Proof. vm_compute. reflexivity. Qed.
Example C59_test_3_3 : accepted false 3 3 = Ok [[0; 1; 2]]. Proof. vm_compute. reflexivity. Qed.
Example C59_test_3_3_loop : (let* l := accepted true 3 3 in Ok (length l)) = Ok 10%nat. Proof. vm_compute. reflexivity. Qed.
(** Two sequences with limits. *)
Example C59_limits : exists f, staircase false [(4, (Some 2, None, None)); (3, (None, Some 1, Some 2))]%nat = Ok f /\
  paths f 0 [0; 2] = 1%nat /\ paths f 0 [0; 3] = 0%nat /\ paths f 0 [1; 3] = 0%nat /\ paths f 0 [1; 2; 3] = 1%nat /\ paths f 1 [0; 1] = 1%nat /\ paths f 1 [0; 2] = 0%nat.
Proof. eexists. split; [vm_compute; reflexivity|]. vm_compute. repeat split. Qed.
Example C59_shared_loop : exists f, f = get_fast_bw_fsa (add_inf_loop (shared_of [(0%nat, 1%nat, 5); (1%nat, 2%nat, 6)]) 1 3) 2 /\
  f_start_end f = [(0, 2); (3, 5)]%nat /\ paths f 1 [5; 2; 0; 6] = 1%nat /\ paths f 1 [5; 3; 6] = 0%nat.
Proof. eexists. split; [reflexivity|]. vm_compute. repeat split. Qed.
