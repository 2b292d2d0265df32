(** C23: which checkpoints the cleanup deletes. Model: CkptModel. *)
From Coq Require Import String QArith.
From Verif Require Import Base PyDict LrModel CkptModel CkptSpec CkptProofs.
Local Open Scope string_scope. Local Open Scope nat_scope. Local Open Scope list_scope.
Local Open Scope Z_scope.

(** Exactly those epochs are deleted which are neither among the last ones, nor among the best for any score that distinguishes the saved epochs, nor in the keep set; and only if there are more than both numbers. *)
Theorem C23_deletes_exactly : forall data epochs o removed,
  ascending epochs -> (forall e, In e epochs -> 1 <= e) -> cleanup data epochs o = Ok removed ->
  ascending removed /\
  forall e, In e removed <->
    In e epochs /\ Z.max (o_last o) (o_best o) < Z.of_nat (length epochs) /\
    ~ keep_set o (last epochs 0) e /\ ~ among_last epochs (o_last o) e /\
    ~ exists key, distinguishes data epochs key /\ among_best data epochs (o_best o) key e.
Proof. intros data epochs o removed H1 H2 H3. destruct (cleanup_spec _ _ _ _ H1 H2 H3) as [A B]. split; [exact B|]. intros e. rewrite A. tauto. Qed.
Print Assumptions C23_deletes_exactly.

(** The most recent epochs are never deleted. *)
Theorem C23_keeps_last : forall data epochs o removed e,
  ascending epochs -> (forall e, In e epochs -> 1 <= e) -> cleanup data epochs o = Ok removed ->
  among_last epochs (o_last o) e -> ~ In e removed.
Proof. intros data epochs o removed e H1 H2 H3 H4 Hin. destruct (cleanup_spec _ _ _ _ H1 H2 H3) as [A _]. apply A in Hin. tauto. Qed.
Print Assumptions C23_keeps_last.

Definition ex_data : scores :=
  [(1, [("dev_score", 5 # 1); ("train_score", 9 # 1)]); (2, [("dev_score", 3 # 1); ("train_score", 8 # 1)]); (3, [("dev_score", 4 # 1); ("train_score", 7 # 1)]);
   (4, [("dev_score", 6 # 1); ("train_score", 6 # 1)]); (5, [("dev_score", 7 # 1); ("train_score", 5 # 1)]); (6, [("dev_score", 8 # 1)])].
Example C23_cleanup_ex : cleanup ex_data [1; 2; 3; 4; 5; 6] (mk_options 1 1 (Some [1]) false) = Ok [3; 4] /\
  cleanup ex_data [1; 2; 3; 4; 5; 6] (mk_options 2 4 (Some []) false) = Ok [] /\
  cleanup ex_data [1; 2; 3; 4; 5; 6] (mk_options 1 0 None false) = Ok [1; 2; 3].
Proof. vm_compute. repeat split; reflexivity. Qed.
Example C23_default_keep_ex : default_keep 3 = [] /\ default_keep 10 = [4; 8; 5; 10] /\ default_keep 100 = [40; 80; 10; 20; 40; 80] /\ default_keep 500 = [320; 20; 40; 80; 160; 320].
Proof. vm_compute. repeat split; reflexivity. Qed.

(** Finding: a score that is the same for all saved epochs having it is ignored, even if other epochs do not have it: the only epoch with a dev score can be deleted. *)
Theorem C23_keeps_some_scored_refuted : ~ (forall data epochs o removed key,
  ascending epochs -> (forall e, In e epochs -> 1 <= e) -> cleanup data epochs o = Ok removed -> 1 <= o_best o ->
  (exists e v, In e epochs /\ has_score data e key v) -> exists e v, In e epochs /\ ~ In e removed /\ has_score data e key v).
Proof.
  intros H. specialize (H [(1, [("dev_score", 5 # 1)]); (2, []); (3, [])] [1; 2; 3] (mk_options 1 1 (Some []) false) [1; 2] "dev_score").
  destruct H as (e&v&He&Hn&(d&Hd&Hk)); [cbn; intuition lia|cbn; intuition lia|reflexivity|cbn; lia|exists 1, (5 # 1); split; [now left|]; exists [("dev_score", (5 # 1))]; split; reflexivity|].
  destruct He as [<-|[<-|[<-|[]]]]; [apply Hn; now left|apply Hn; right; now left|]. vm_compute in Hd. injection Hd as <-. discriminate.
Qed.
Print Assumptions C23_keeps_some_scored_refuted.

(** Finding: a saved epoch about which the learning rate file knows nothing makes the cleanup fail. *)
Theorem C23_never_fails_refuted : ~ (forall data epochs o, ascending epochs -> 1 <= o_last o -> 0 <= o_best o -> o_unknown o = false -> score_keys data <> [] -> exists removed, cleanup data epochs o = Ok removed).
Proof. intros H. destruct (H [(1, [("dev_score", 5 # 1)]); (2, [("dev_score", 4 # 1)])] [1; 2; 3] (mk_options 1 1 (Some []) false)) as [r Hr]; [cbn; intuition lia|cbn; lia|cbn; lia|reflexivity|discriminate|]. discriminate. Qed.
Print Assumptions C23_never_fails_refuted.

(** Finding: a misspelled option is only reported once something is to be deleted. *)
Theorem C23_unknown_option_refuted : ~ (forall data epochs o, o_unknown o = true -> epochs <> [] -> exists err, cleanup data epochs o = Err err).
Proof. intros H. destruct (H ex_data [1; 2] (mk_options 2 1 (Some []) true)) as [r Hr]; [reflexivity|discriminate|discriminate]. Qed.
Print Assumptions C23_unknown_option_refuted.
