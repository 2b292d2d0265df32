(** C38: resuming a killed training. Model: ResumeModel, CkptModel. *)
From Coq Require Import String QArith.
From Verif Require Import Base PyDict LrModel CkptModel CkptSpec ResumeModel ResumeSpec ResumeProofs.
Local Open Scope string_scope. Local Open Scope nat_scope. Local Open Scope list_scope.
Local Open Scope Z_scope.

(** Whenever the training was killed before, each start continues with the epoch right after the last completely saved checkpoint. *)
Theorem C38_resumes_after_last_completed : forall c tr e s, sensible c ->
  run c fresh (tr ++ [Started e]) s -> e = last_completed tr + 1.
Proof. intros c tr e s Hs H. apply run_snoc_inv in H. destruct H as (s1&H1&H2). exact (proj2 (step_inv _ _ _ _ _ Hs (run_inv _ _ _ Hs H1) H2) e eq_refl). Qed.
Print Assumptions C38_resumes_after_last_completed.

(** At every moment, also in the middle of saving or deleting, both files of the last completed checkpoint exist, and a start would work. *)
Theorem C38_always_resumable : forall c tr s, sensible c -> run c fresh tr s ->
  (last_completed tr = 0 \/ resumable (s_files s) (last_completed tr)) /\
  get_train_start_epoch (s_files s) (c_final c) auto_start = Ok (last_completed tr + 1).
Proof. intros c tr s Hs H. pose proof (run_inv _ _ _ Hs H) as Hi. split; [exact (proj1 (proj2 Hi))|exact (start_epoch _ _ _ Hi)]. Qed.
Print Assumptions C38_always_resumable.

Example C38_sensible_ex : sensible (mk_config 10 1 (Some (mk_options 1 1 None false)) false) /\ sensible (mk_config 10 3 (Some (mk_options 2 4 None false)) false).
Proof. unfold sensible. cbn. lia. Qed.

(** A run: epochs 1 and 2 are saved, the process is killed in epoch 3 between saving the model and the optimizer, and starts again with epoch 3. *)
Definition ex_c : config := mk_config 10 1 None false.
Ltac go := cbn [app drop filter Z.eqb Pos.eqb negb andb Z.ltb Z.sub f_model f_opt c_apply_keep]; eapply run_cons.
Example C38_run_ex : exists tr s, run ex_c fresh (tr ++ [Started 3]) s /\ last_completed tr = 2 /\ f_model (s_files s) = [3; 2; 1] /\ f_opt (s_files s) = [2; 1].
Proof.
  exists [Started 1; Nothing; Completed 1; Nothing; Nothing; Nothing; Nothing; Completed 2; Nothing; Nothing; Nothing; Nothing; Nothing]. eexists. split.
  - unfold fresh.
    go; [apply r_start; [reflexivity|discriminate]|]. go; [apply r_model; reflexivity|]. go; [apply r_opt|]. go; [apply r_old_opt|]. go; [apply r_no_cleanup; reflexivity|]. go; [apply r_next; discriminate|].
    go; [apply r_model; reflexivity|]. go; [apply r_opt|]. go; [apply r_old_opt|]. go; [apply r_no_cleanup; reflexivity|]. go; [apply r_next; discriminate|].
    go; [apply r_model; reflexivity|]. go; [apply r_kill|]. go; [apply r_start; [reflexivity|discriminate]|]. apply run_nil.
  - cbn. repeat split; reflexivity.
Qed.

(** Finding: with [save_interval] 2 and [keep_last_n] 1, a crash while epoch 4 is saved leaves its model without optimizer state; after resuming, the cleanup at the end of epoch 3 takes that one for the last checkpoint and deletes epoch 2, the only one to resume from. After another crash the training starts with epoch 1 again. *)
Theorem C38_keep_last_one_refuted : ~ (forall c tr e s, 1 <= c_interval c -> 0 <= c_final c ->
  match c_cleanup c with Some o => 1 <= o_last o | None => True end ->
  run c fresh (tr ++ [Started e]) s -> e = last_completed tr + 1).
Proof.
  intros H.
  specialize (H (mk_config 10 2 (Some (mk_options 1 0 (Some []) false)) false)
    [Started 1; Nothing; Nothing; Nothing; Nothing; Completed 2; Nothing; Nothing; Nothing; Nothing; Nothing; Nothing; Nothing; Nothing; Started 3; Nothing; Nothing; Nothing; Nothing; Nothing] 1).
  set (data := map (fun e => (e, [("dev_score", 1 # 1)])) [1; 2; 3; 4] : scores).
  assert (Hx : forall P : Prop, ((1:Z) = last_completed [Started 1; Nothing; Nothing; Nothing; Nothing; Completed 2; Nothing; Nothing; Nothing; Nothing; Nothing; Nothing; Nothing; Nothing; Started 3; Nothing; Nothing; Nothing; Nothing; Nothing] + 1 -> P)) by (intros P E; discriminate E).
  eapply Hx, H; [cbn; lia|cbn; lia|cbn; lia|]. unfold fresh.
  go; [apply r_start; [reflexivity|discriminate]|]. go; [apply r_no_save; reflexivity|]. go; [apply (r_cleanup _ _ _ (mk_options 1 0 (Some []) false) data []); reflexivity|]. go; [apply r_next; discriminate|].
  go; [apply r_model; reflexivity|]. go; [apply r_opt|]. go; [apply r_old_opt|]. go; [apply (r_cleanup _ _ _ (mk_options 1 0 (Some []) false) data []); reflexivity|]. go; [apply r_next; discriminate|].
  go; [apply r_no_save; reflexivity|]. go; [apply (r_cleanup _ _ _ (mk_options 1 0 (Some []) false) data []); reflexivity|]. go; [apply r_next; discriminate|].
  go; [apply r_model; reflexivity|]. go; [apply r_kill|].
  go; [apply r_start; [reflexivity|discriminate]|]. go; [apply r_no_save; reflexivity|]. go; [apply (r_cleanup _ _ _ (mk_options 1 0 (Some []) false) data [2]); reflexivity|].
  go; [apply r_delete; cbn; auto|]. go; [apply r_delete_opt|]. go; [apply r_kill|]. go; [apply r_start; [reflexivity|discriminate]|]. apply run_nil.
Qed.
Print Assumptions C38_keep_last_one_refuted.

(** Finding: [start_epoch = 5] without any checkpoint starts with epoch 1; *)
Theorem C38_start_epoch_refuted : ~ (forall f final s e, 1 <= s -> get_train_start_epoch f final (mk_start true (Some s) None (-1) false) = Ok e -> e = s).
Proof. intros H. specialize (H (mk_files [] []) 10 5 1 ltac:(lia) eq_refl). discriminate. Qed.
Print Assumptions C38_start_epoch_refuted.
(** but when there are checkpoints, it is obeyed. *)
Theorem C38_start_epoch : forall f final s e, 1 <= s -> (exists x, 1 <= x <= final /\ resumable f x) ->
  get_train_start_epoch f final (mk_start true (Some s) None (-1) false) = Ok e -> e = s /\ (1 < s -> resumable f (s - 1)).
Proof. exact start_epoch_obeyed. Qed.
Print Assumptions C38_start_epoch.
Example C38_start_epoch_ex : get_train_start_epoch (mk_files [1; 2; 3; 4] [2; 3; 4]) 10 (mk_start true (Some 4) None (-1) false) = Ok 4.
Proof. reflexivity. Qed.

(** The checkpoints are completed exactly when they are due: none is skipped, and none is saved in between. *)
Theorem C38_saves_when_due : forall c tr e s, sensible c -> run c fresh (tr ++ [Completed e]) s ->
  last_completed tr < e <= c_final c /\ due c e /\ forall j, last_completed tr < j < e -> ~ due c j.
Proof. exact completes_due. Qed.
Print Assumptions C38_saves_when_due.
(** At every moment a start would load the last completed checkpoint, if there is one. *)
Theorem C38_loads_last_completed : forall c tr s, sensible c -> run c fresh tr s ->
  get_epoch_model (s_files s) (c_final c) auto_start =
  Ok (if last_completed tr =? 0 then (None, None) else (Some (last_completed tr), Some (Checkpoint (last_completed tr)))).
Proof. intros c tr s Hs H. apply auto_loads. now apply run_inv. Qed.
Print Assumptions C38_loads_last_completed.
(** Whatever the options are: if a checkpoint of this training is loaded, its files exist (for training also the optimizer state), and it is the one of
    the epoch after which the training goes on; except that with both start_epoch and load_epoch the epoch is not known. *)
Theorem C38_loads_matching_epoch : forall f final o ep c, get_epoch_model f final o = Ok (ep, Some (Checkpoint c)) ->
  1 <= c <= final /\ In c (f_model f) /\ (st_train o = true -> In c (f_opt f)) /\
  (ep = Some c \/ ep = None /\ st_train o = true /\ st_start o <> None /\ st_load_epoch o = c).
Proof. exact loads_matching. Qed.
Print Assumptions C38_loads_matching_epoch.
Example C38_loads_ex : get_epoch_model (mk_files [1; 2; 3; 4] [2; 3; 4]) 10 (mk_start true (Some 4) None (-1) false) = Ok (Some 3, Some (Checkpoint 3)) /\
  get_epoch_model (mk_files [1; 2; 3; 4] [2; 3; 4]) 10 (mk_start true None None (-1) false) = Ok (Some 4, Some (Checkpoint 4)).
Proof. split; reflexivity. Qed.
(** Finding: start_epoch = 5 together with load_epoch = 4 loads the checkpoint of epoch 4, and then starts with epoch 1. *)
Theorem C38_start_and_load_epoch_refuted :
  ~ (forall f final s e, 1 <= s -> (exists x, 1 <= x <= final /\ resumable f x) -> resumable f (s - 1) -> get_train_start_epoch f final (mk_start true (Some s) None (s - 1) false) = Ok e -> e = s).
Proof.
  intros H. assert (R : resumable (mk_files [4] [4]) 4) by (split; cbn; auto).
  assert (E : 1 = 5); [|discriminate]. apply (H (mk_files [4] [4]) 10 5 1); [lia|exists 4; split; [lia|exact R]|exact R|reflexivity].
Qed.
Print Assumptions C38_start_and_load_epoch_refuted.
