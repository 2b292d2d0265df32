(** Property C16: the lock file. *)
From Verif Require Import Base LockModel LockSpec LockProofs.
Local Open Scope Z_scope.

(** C16: for every schedule of any number of processes, with kills at any point: as long as no holder keeps the lock longer than the
    timeout, and a lock file found old is still an old one when it is removed, at most one process has the lock at a time, and no
    [unlock] fails. This includes taking over the lock of a killed process. *)
Theorem C16_exclusive : forall timeout es now,
  always timeout (fun w e => holders_in_time timeout w /\ removes_only_stale timeout w e) es (start now) ->
  exclusive (run timeout es (start now)) /\ forall p, w_pc (run timeout es (start now)) p <> Failed.
Proof. intros timeout es now H. split; [apply inv_exclusive, run_inv, H|now apply run_not_failed]. Qed.
Print Assumptions C16_exclusive.

(** C16: in particular if no lock file ever gets older than the timeout (and no waiting process stops for longer than
    that between looking at the file and at the clock). *)
Theorem C16_exclusive_without_old_locks : forall timeout es now,
  always timeout (fun w _ => ~ stale timeout w /\ forall p m, w_pc w p = Compare m -> Z.abs (w_now w - m) <= timeout) es (start now) ->
  exclusive (run timeout es (start now)).
Proof. intros timeout es now H. apply inv_exclusive, run_inv, fresh_all, H. Qed.
Print Assumptions C16_exclusive_without_old_locks.

(** Processes 0 and 1 compete, 0 gets it, is killed, and 1 takes the lock over when it is old. *)
Definition ex_schedule : list event :=
  [Start 0; Start 1; Act 0; Act 1; Act 1; Act 1; Crash 0; Act 1; Tick 5000; Act 1; Act 1; Act 1; Act 1; Act 1; Act 1]%nat.
Definition ex_check (w : world) (e : event) : bool :=
  let old := match w_file w with Some (_, m) => 3600 <? Z.abs (w_now w - m) | None => false end in
  negb (old && existsb (fun p => match w_pc w p with Held | Close | Remove => true | _ => false end) [0;1]%nat) &&
  match e with Act p => match w_pc w p with RemoveOld => old | _ => true end | _ => true end.
Example C16_ex :
  w_pc (run 3600 ex_schedule (start 100)) 1%nat = Held /\
  forallb (fun i => match nth_error ex_schedule i with Some e => ex_check (run 3600 (firstn i ex_schedule) (start 100)) e | None => true end)
    (seq 0 (length ex_schedule)) = true.
Proof. vm_compute. split; reflexivity. Qed.

(** C16: a killed process does not block the others for ever: a waiting process gets the lock by itself
    when the left lock file is old. *)
Theorem C16_recovers_from_killed_holder : forall timeout w p q m,
  In (w_pc w p) [Create; Check; RemoveOld; Sleep] -> w_file w = Some (q, m) -> m <> 0 -> timeout < Z.abs (w_now w - m) ->
  exists es, (forall e, In e es -> e = Act p) /\ holds (run timeout es w) p.
Proof.
  intros timeout w p q m Hp Hf Hm Ho. apply recovers.
  - cbn in Hp. destruct Hp as [<-|[<-|[<-|[<-|[]]]]]; exact I.
  - intros q' m' E. rewrite Hf in E. injection E as <- <-. unfold is_old. destruct (Z.eqb_spec m 0); [contradiction|]. cbn. lia.
Qed.
Print Assumptions C16_recovers_from_killed_holder.

(** C16, finding: two processes wait for the old lock of a killed one. Both find it old; the first removes it and gets the
    lock, then the second removes this new lock and gets it too. No holder was late. *)
Theorem C16_two_waiters_refuted :
  ~ (forall timeout es now, 0 < timeout -> 0 < now -> always timeout (fun w _ => holders_in_time timeout w) es (start now) ->
     exclusive (run timeout es (start now))).
Proof.
  intros H.
  set (es := [Start 0; Act 0; Crash 0; Start 1; Start 2; Act 1; Act 2; Tick 5000; Act 1; Act 2; Act 1; Act 2;
              Act 1; Act 1; Act 1; Act 2; Act 2; Act 2]%nat).
  specialize (H 3600 es 100 ltac:(lia) ltac:(lia)).
  assert (Ha : always 3600 (fun w _ => holders_in_time 3600 w) es (start 100)).
  { intros pre e post Heq p Hp (q&m&Hq&Hs). revert Heq Hp Hq Hs. unfold es, in_possession.
    do 18 (destruct pre as [|? pre]; [intros _; cbn; intros Hp Hq Hs; (destruct p as [|[|[|p]]]; cbn in Hp; destruct Hp as [Hp|[Hp|Hp]]; try discriminate Hp; first [discriminate Hq|injection Hq as <- <-; cbn in Hs; lia])|
      intros Heq; injection Heq as <- Heq; revert Heq]).
    intros Heq. destruct pre; discriminate. }
  specialize (H Ha 1%nat 2%nat eq_refl eq_refl). discriminate.
Qed.
Print Assumptions C16_two_waiters_refuted.

(** C16, finding: [unlock] does not check that the file is still its own. If a holder was late, and another
    process took the lock over, the late [unlock] removes the lock of the other, and a third process gets it too. *)
Theorem C16_late_unlock_refuted :
  ~ (forall timeout es now p q, 0 < timeout -> 0 < now -> always timeout (removes_only_stale timeout) es (start now) ->
     (* all locks that are held now were taken in time *)
     holds (run timeout es (start now)) p -> holds (run timeout es (start now)) q -> ~ stale timeout (run timeout es (start now)) -> p = q).
Proof.
  intros H.
  set (es := [Start 0; Act 0; Start 1; Act 1; Tick 5000; Act 1; Act 1; Act 1; Act 1; Act 1;
              Release 0; Act 0; Act 0; Start 2; Act 2]%nat).
  specialize (H 3600 es 100 1%nat 2%nat ltac:(lia) ltac:(lia)).
  assert (Ha : always 3600 (removes_only_stale 3600) es (start 100)).
  { intros pre e post Heq p He Hp. revert Heq He Hp. unfold es.
    do 15 (destruct pre as [|? pre]; [intros Heq He; injection Heq as <- _; try discriminate He; injection He as <-; cbn; intros Hp;
        first [discriminate Hp|right; exists 0%nat, 100; split; [reflexivity|cbn; lia]]|
      intros Heq; injection Heq as <- Heq; revert Heq]).
    intros Heq. destruct pre; discriminate. }
  specialize (H Ha eq_refl eq_refl). discriminate H. intros (q&m&Hq&Hs). cbn in Hq. injection Hq as <- <-. cbn in Hs. lia.
Qed.
Print Assumptions C16_late_unlock_refuted.
