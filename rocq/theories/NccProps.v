(** C129 and C130: libraries compiled on the fly. *)
From Coq Require Import Lia.
From Verif Require Import Base NccModel NccSpec NccProofs.

(** Calls one after the other, where all of them have the same code and no dependencies. Killed processes at any point (but one), cleaning up by others and passing of time do
    not matter: each call loads the library of its code, none fails. *)
Theorem C129_serial key k limit es : (forall p, key p = k) ->
  history key (fun _ => false) limit (fun e w => one_at_a_time e w /\ info_written e w) es fresh ->
  forall p, match pcs (run key (fun _ => false) limit es fresh) p with Loaded l => exists d, l = Lib k d | Failed _ => False | _ => True end.
Proof.
  intros Hk H p. assert (I : SInv k true (run key (fun _ => false) limit es fresh)).
  { apply (serial_inv key k limit true Hk). clear -H. revert H. generalize fresh. induction es as [|e es IH]; intros w H; cbn in *; auto. split; [tauto|]. now apply IH. }
  destruct I as (F & U & M & _). specialize (F p). specialize (M p). destruct (pcs (run key (fun _ => false) limit es fresh) p); auto; specialize (F eq_refl); cbn in F.
  - exact F.
  - destruct F; discriminate.
Qed.
Print Assumptions C129_serial.

(** If a process may be killed at any point, calls may fail, but a wrong library is still never loaded. *)
Theorem C129_crash key k limit es : (forall p, key p = k) ->
  history key (fun _ => false) limit one_at_a_time es fresh ->
  forall p, match pcs (run key (fun _ => false) limit es fresh) p with Loaded l => exists d, l = Lib k d | Failed e => e = OtherException | _ => True end.
Proof.
  intros Hk H p. assert (I : SInv k false (run key (fun _ => false) limit es fresh)).
  { apply (serial_inv key k limit false Hk). clear -H. revert H. generalize fresh. induction es as [|e es IH]; intros w H; cbn in *; auto. split; [|now apply IH]. split; [tauto|discriminate]. }
  destruct I as (F & U & M & _). specialize (F p). destruct (pcs (run key (fun _ => false) limit es fresh) p); auto; specialize (F eq_refl); cbn in F; tauto.
Qed.
Print Assumptions C129_crash.

(** A process killed between creating and writing the info file breaks all later calls, also at the same time: they fail until the library is so old that it is cleaned up. *)
Theorem C129_crash_in_info key limit es w m0 : info w = Some (None, m0) -> so w <> None -> quiet w ->
  history key (fun _ => false) limit no_cleanup es w ->
  forall p, pcs w p = Idle -> match pcs (run key (fun _ => false) limit es w) p with Loaded _ => False | Failed e => e = OtherException | _ => True end.
Proof.
  intros Hi Hs Hq H p Hp.
  set (I := fun v => (exists m, info v = Some (None, m)) /\ so v <> None /\ (forall q, pcs w q <> Idle -> pcs v q = pcs w q) /\
    forall q, pcs w q = Idle -> match pcs v q with Idle | CheckSo false | CheckInfo false | Dead => True | Failed e => e = OtherException | _ => False end).
  assert (Iw : I (run key (fun _ => false) limit es w)).
  { revert H. apply (history_inv key (fun _ => false) limit no_cleanup I); [|repeat split; eauto; intros q E; now rewrite E].
    clear es p Hp. intros e v Hc ((m & Vi) & Vs & Vo & Vp). assert (Vi' : exists m, info v = Some (None, m)) by eauto.
    destruct e as [p|p|p|p| |d|d]; cbn [exec]; try contradiction.
    - destruct (pcs v p) eqn:Ep; try (repeat split; assumption). repeat split; auto.
      + intros q E. destruct (Nat.eq_dec p q) as [<-|Hn]; [rewrite <- (Vo p E) in E; congruence|rewrite set_pc_other by auto; now apply Vo].
      + intros q E. destruct (Nat.eq_dec p q) as [<-|Hn]; [now rewrite set_pc_same|]. rewrite set_pc_other by auto. now apply Vp.
    - destruct (ended (pcs v p)) eqn:He.
      { replace (act key (fun _ => false) limit p v) with v; [repeat split; assumption|]. unfold act. destruct (pcs v p); cbn in He; congruence. }
      assert (E : pcs w p = Idle). { destruct (pcs w p) eqn:E; auto; specialize (Hq p); rewrite (Vo p) in He; rewrite E in *; cbn in *; congruence. }
      pose proof (Vp p E) as Vpp. unfold act. destruct (pcs v p) eqn:Ep; cbn in He; try discriminate; try contradiction.
      + destruct second; [contradiction|]. destruct (so v) eqn:Es; [|congruence]. split; [exact Vi'|]. split; [cbn; congruence|]. split.
        * intros q En. destruct (Nat.eq_dec p q) as [<-|Hn]; [congruence|rewrite set_pc_other by auto; now apply Vo].
        * intros q Eq. destruct (Nat.eq_dec p q) as [<-|Hn]; [now rewrite set_pc_same|]. rewrite set_pc_other by auto. now apply Vp.
      + destruct second; [contradiction|]. rewrite Vi. split; [exact Vi'|]. split; [exact Vs|]. split.
        * intros q En. destruct (Nat.eq_dec p q) as [<-|Hn]; [congruence|rewrite set_pc_other by auto; now apply Vo].
        * intros q Eq. destruct (Nat.eq_dec p q) as [<-|Hn]; [now rewrite set_pc_same|]. rewrite set_pc_other by auto. now apply Vp.
    - destruct (ended (pcs v p)) eqn:He.
      { replace (match pcs v p with Idle | Loaded _ | Failed _ | Cleaned | Dead => v | _ => set_pc p Dead v end) with v; [repeat split; assumption|]. destruct (pcs v p); cbn in He; congruence. }
      replace (match pcs v p with Idle | Loaded _ | Failed _ | Cleaned | Dead => v | _ => set_pc p Dead v end) with (set_pc p Dead v) by (destruct (pcs v p); cbn in He; congruence).
      split; [exact Vi'|]. split; [exact Vs|]. split.
      + intros q En. destruct (Nat.eq_dec p q) as [<-|Hn]; [|rewrite set_pc_other by auto; now apply Vo]. rewrite (Vo p En) in He. specialize (Hq p). congruence.
      + intros q Eq. destruct (Nat.eq_dec p q) as [<-|Hn]; [now rewrite set_pc_same|]. rewrite set_pc_other by auto. now apply Vp.
    - destruct (lock v) as [q|]; [|repeat split; assumption]. destruct (pcs v q); repeat split; assumption.
    - repeat split; assumption.
    - repeat split; assumption. }
  destruct Iw as (_ & _ & _ & Ip). specialize (Ip p Hp). destruct (pcs (run key (fun _ => false) limit es w) p); auto; contradiction.
Qed.
Print Assumptions C129_crash_in_info.

(** This happens. *)
Definition calls p n := Start p :: repeat (Act p) n.
Theorem C129_serial_refuted : ~ forall key limit es, (forall p q, key p = key q) -> history key (fun _ => false) limit one_at_a_time es fresh ->
  forall p, match pcs (run key (fun _ => false) limit es fresh) p with Failed _ => False | _ => True end.
Proof.
  intro H. specialize (H (fun _ => 7) 60 (calls 0 6 ++ [Crash 0; Expire] ++ calls 1 2) (fun _ _ => eq_refl)).
  apply (H ltac:(repeat split; intros [|[|q]]; reflexivity) 1).
Qed.
Print Assumptions C129_serial_refuted.

(** With dependencies, without killed processes, and if the dependencies change only between calls: a process with dependencies loads the library compiled with the current ones. *)
Theorem C129_dependencies key deps k limit es : (forall p, key p = k) ->
  history key deps limit (fun e w => one_at_a_time e w /\ no_crash e w /\ edits_between e w) es fresh ->
  let w := run key deps limit es fresh in forall p,
  (pcs w p = Load -> exists d, pcs (exec key deps limit (Act p) w) p = Loaded (Lib k d) /\ (deps p = true -> d = dep w)) /\ forall e, pcs w p <> Failed e.
Proof.
  intros Hk H w p. pose proof (deps_inv key deps k limit Hk es H) as I. fold w in I. split.
  - intro E. destruct (deps_load deps k w p I E) as (d & m & Hs & Hd). exists d. split; [|exact Hd]. cbn [exec]. unfold act. rewrite E, Hs. apply set_pc_same.
  - intros e E. destruct I as (_ & F & _). specialize (F p). rewrite E in F. exact (F eq_refl).
Qed.
Print Assumptions C129_dependencies.

(** A process killed while it compiles again leaves a broken library behind, which all later processes take for current. *)
Theorem C129_dependencies_crash_refuted : ~ forall key limit es, (forall p q, key p = key q) -> history key (fun _ => true) limit (fun e w => one_at_a_time e w /\ info_written e w /\ edits_between e w) es fresh ->
  forall p, pcs (run key (fun _ => true) limit es fresh) p <> Loaded Broken.
Proof.
  intro H. specialize (H (fun _ => 7) 60 (calls 0 12 ++ [Edit 0] ++ calls 1 6 ++ [Crash 1; Expire] ++ calls 2 5) (fun _ _ => eq_refl)).
  apply (H ltac:(repeat split; try discriminate; intros [|[|[|q]]]; reflexivity) 2). vm_compute. reflexivity.
Qed.
Print Assumptions C129_dependencies_crash_refuted.

(** If the dependencies change while the compiler runs, the library with the old ones is taken for current. *)
Theorem C129_dependencies_edit_refuted : ~ forall key limit es, (forall p q, key p = key q) -> history key (fun _ => true) limit (fun e w => one_at_a_time e w /\ no_crash e w) es fresh ->
  let w := run key (fun _ => true) limit es fresh in forall p, pcs w p = Load -> exists k, pcs (exec key (fun _ => true) limit (Act p) w) p = Loaded (Lib k (dep w)).
Proof.
  intro H. specialize (H (fun _ => 7) 60 (calls 0 4 ++ [Edit 0] ++ repeat (Act 0) 7 ++ calls 1 4) (fun _ _ => eq_refl)).
  destruct (H ltac:(repeat split; intros [|[|q]]; reflexivity) 1 eq_refl) as [k E]. vm_compute in E. discriminate.
Qed.
Print Assumptions C129_dependencies_edit_refuted.

(** If different codes share the directory ([static_version_name]), a process killed at the wrong moment makes others load the library of another code. *)
Theorem C129_static_name_refuted : ~ forall key limit es, history key (fun _ => false) limit (fun e w => one_at_a_time e w /\ info_written e w) es fresh ->
  forall p l, pcs (run key (fun _ => false) limit es fresh) p = Loaded l -> exists d, l = Lib (key p) d.
Proof.
  intro H. destruct (H (fun p => p mod 2) 60 (calls 0 10 ++ calls 1 7 ++ [Crash 1; Expire] ++ calls 2 4)
    ltac:(repeat split; try discriminate; intros [|[|[|q]]]; reflexivity) 2 (Lib 1 0) ltac:(vm_compute; reflexivity)) as [d E]. vm_compute in E. discriminate.
Qed.
Print Assumptions C129_static_name_refuted.

(** A library can be cleaned up although it was used just before: its use touches the info file, but the cleanup looks at the library. *)
Theorem C129_used_refuted : ~ forall key limit es p, (forall p q, key p = key q) -> history key (fun _ => false) limit (fun e w => one_at_a_time e w /\ no_crash e w) es fresh ->
  let w := run key (fun _ => false) limit es fresh in pcs w p = Remove -> forall c m, info w = Some (c, m) -> m + limit < now w.
Proof.
  intro H. specialize (H (fun _ => 7) 60 (calls 0 10 ++ [Tick 61] ++ calls 1 4 ++ StartClean 2 :: repeat (Act 2) 4) 2 (fun _ _ => eq_refl)).
  specialize (H ltac:(repeat split; intros [|[|[|q]]]; reflexivity) ltac:(vm_compute; reflexivity) (Some 7) 61 ltac:(vm_compute; reflexivity)). vm_compute in H. lia.
Qed.
Print Assumptions C129_used_refuted.

(** Any number of processes at the same time, without killed processes and cleaning up: at most one writes to the directory; *)
Theorem C130_exclusive key k limit es : (forall p, key p = k) ->
  history key (fun _ => false) limit (fun e w => no_crash e w /\ no_cleanup e w) es fresh ->
  let w := run key (fun _ => false) limit es fresh in forall p q, has_lock (pcs w p) = true -> has_lock (pcs w q) = true -> p = q.
Proof.
  intros Hk H w p q Hp Hq. destruct (concurrent_inv key k limit Hk es H) as (L & _). apply L in Hp, Hq. congruence.
Qed.
Print Assumptions C130_exclusive.

(** each process loads the library of its code, if no other process writes it at this moment; it fails only if another process writes the info file at this moment; *)
Theorem C130_result key k limit es : (forall p, key p = k) ->
  history key (fun _ => false) limit (fun e w => no_crash e w /\ no_cleanup e w) es fresh ->
  let w := run key (fun _ => false) limit es fresh in forall p,
  (pcs w p = Load -> (forall q, ~ writes_library w q) -> exists d, pcs (exec key (fun _ => false) limit (Act p) w) p = Loaded (Lib k d)) /\
  (forall e, ended (pcs w p) = false -> pcs (exec key (fun _ => false) limit (Act p) w) p = Failed e -> exists q, pcs w q = WriteInfo).
Proof.
  intros Hk H w p. pose proof (concurrent_inv key k limit Hk es H) as I. fold w in I. split.
  - intros E Hn. destruct (concurrent_load k w p I E) as [(d & m & Hs)|(x & _ & q & Hq)]; [|destruct (Hn q Hq)]. exists d. cbn [exec]. unfold act. rewrite E, Hs. apply set_pc_same.
  - intros e He. pose proof I as (L & S & P). pose proof (P p) as Pp. pose proof (concurrent_act key k limit Hk p w I) as (_ & _ & P'). specialize (P' p). cbn [exec].
    intro Ef. rewrite Ef in P'. cbn in P'. subst e. unfold act in Ef. destruct (pcs w p) eqn:Ep; cbn [ended proc] in *; try discriminate; try contradiction; rewrite ?set_pc_same in Ef; try discriminate.
    + destruct (so w), second; discriminate.
    + destruct (info w) as [[[k'|] m]|] eqn:Ei; [destruct (k' =? key p), second; discriminate| |destruct second; discriminate]. exact (concurrent_incomplete k w m I Ei).
    + destruct (info w) as [[c m]|]; rewrite set_pc_same in Ef; discriminate.
    + destruct (lock w); [congruence|]. rewrite set_pc_same in Ef. discriminate.
    + destruct (present w); rewrite set_pc_same in Ef; discriminate.
    + destruct (so w); rewrite set_pc_same in Ef; discriminate.
    + destruct (present w); rewrite set_pc_same in Ef; discriminate.
    + assert (Hl : lock w = Some p) by (apply L; now rewrite Ep). unfold lockst in S. rewrite Hl, Ep in S. destruct S as [_ S]. cbn in S. match type of S with match ?x with _ => _ end => destruct x end; [contradiction|]. rewrite Hl, set_pc_same in Ef. discriminate.
    + destruct (so w) as [[l m]|]; discriminate.
Qed.
Print Assumptions C130_result.

(** and as long as not all have ended, some process can go on. *)
Theorem C130_progress key k limit es : (forall p, key p = k) ->
  history key (fun _ => false) limit (fun e w => no_crash e w /\ no_cleanup e w) es fresh ->
  let w := run key (fun _ => false) limit es fresh in forall p, ended (pcs w p) = false -> exists q, pcs (exec key (fun _ => false) limit (Act q) w) q <> pcs w q.
Proof. intros Hk H w p Hp. eapply concurrent_progress; eauto. apply concurrent_inv; auto. Qed.
Print Assumptions C130_progress.

(** But a process can get a broken library: the check after waiting for the lock is done before it is taken, so a second process compiles again while the first one loads. *)
Theorem C130_broken_refuted : ~ forall key limit es, (forall p q, key p = key q) -> history key (fun _ => false) limit (fun e w => no_crash e w /\ no_cleanup e w) es fresh ->
  forall p, pcs (run key (fun _ => false) limit es fresh) p <> Loaded Broken.
Proof.
  intro H. specialize (H (fun _ => 7) 60 (calls 0 2 ++ calls 1 2 ++ repeat (Act 0) 7 ++ repeat (Act 1) 2 ++ [Act 0]) (fun _ _ => eq_refl)).
  apply (H ltac:(repeat split) 0). vm_compute. reflexivity.
Qed.
Print Assumptions C130_broken_refuted.

(** And it can fail as another process has just created the info file. *)
Theorem C130_failed_refuted : ~ forall key limit es, (forall p q, key p = key q) -> history key (fun _ => false) limit (fun e w => no_crash e w /\ no_cleanup e w) es fresh ->
  forall p e, pcs (run key (fun _ => false) limit es fresh) p <> Failed e.
Proof.
  intro H. specialize (H (fun _ => 7) 60 (calls 0 6 ++ calls 1 2) (fun _ _ => eq_refl)).
  apply (H ltac:(repeat split) 1 OtherException). vm_compute. reflexivity.
Qed.
Print Assumptions C130_failed_refuted.

(** The directory can be deleted while a process compiles in it: the cleanup of another process looks for the lock before. *)
Theorem C130_cleanup_refuted : ~ forall key limit es, (forall p q, key p = key q) -> history key (fun _ => false) limit info_written es fresh ->
  forall p e, pcs (run key (fun _ => false) limit es fresh) p = Failed e -> e = OtherException.
Proof.
  intro H. specialize (H (fun _ => 7) 60 (calls 0 4 ++ [Crash 0; Expire; StartClean 1; Act 1; Act 1] ++ calls 2 5 ++ [Act 1; Act 2; Act 2]) (fun _ _ => eq_refl)).
  specialize (H ltac:(repeat split; discriminate) 2 OSError ltac:(vm_compute; reflexivity)). discriminate.
Qed.
Print Assumptions C130_cleanup_refuted.

(** Two calls, one killed in the middle, another after the cleanup: all as it should be *)
Definition a_history : list event := calls 0 4 ++ [Crash 0; Expire] ++ calls 1 12 ++ [Tick 100; StartClean 2] ++ repeat (Act 2) 5 ++ calls 3 10.
Example C129_example : history (fun _ => 7) (fun _ => false) 60 (fun e w => one_at_a_time e w /\ info_written e w) a_history fresh /\
  map (pcs (run (fun _ => 7) (fun _ => false) 60 a_history fresh)) [0; 1; 2; 3] = [Dead; Loaded (Lib 7 0); Cleaned; Loaded (Lib 7 0)].
Proof. split; [repeat split; try discriminate; intros [|[|[|[|q]]]]; reflexivity|vm_compute; reflexivity]. Qed.
Example C129_example_deps : let es := calls 0 11 ++ [Edit 3] ++ calls 1 12 ++ calls 2 5 in
  history (fun _ => 7) (fun p => negb (p =? 2)) 60 (fun e w => one_at_a_time e w /\ no_crash e w /\ edits_between e w) es fresh /\
  map (pcs (run (fun _ => 7) (fun p => negb (p =? 2)) 60 es fresh)) [0; 1; 2] = [Loaded (Lib 7 0); Loaded (Lib 7 4); Loaded (Lib 7 4)].
Proof. split; [repeat split; try discriminate; intros [|[|[|[|q]]]]; reflexivity|vm_compute; reflexivity]. Qed.
Example C130_example : let es := calls 0 3 ++ calls 1 3 ++ repeat (Act 0) 7 ++ calls 2 4 ++ repeat (Act 1) 8 in
  map (pcs (run (fun _ => 7) (fun _ => false) 60 es fresh)) [0; 1; 2] = [Loaded (Lib 7 0); Loaded (Lib 7 0); Loaded (Lib 7 0)].
Proof. vm_compute. reflexivity. Qed.
