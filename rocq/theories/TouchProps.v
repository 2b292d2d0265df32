(** Property C19: files in use are kept alive. *)
From Coq Require Import String.
From Verif Require Import Base PyDict TouchModel TouchSpec TouchProofs.
Local Open Scope list_scope.
Local Notation length := List.length.

(** C19: after any history of acquiring and releasing, in any interleaving with the thread, the files to be touched are exactly those that were
    acquired more often than released; if somebody released too often then at least those. *)
Theorem C19_touches_the_files_in_use : forall ex es f,
  let files := dkeys (t_files (run es (start ex))) in
  ((released f es < acquired f es)%Z -> In f files) /\
  (balanced f es -> (In f files <-> (released f es < acquired f es)%Z)).
Proof.
  cbv zeta. intros ex es f. destruct (run_pos ex es) as (Hp&Hge&Heq). specialize (Hge f). specialize (Heq f). rewrite (in_use_count _ f Hp).
  split; [lia|]. intros Hb. rewrite (Heq Hb). lia.
Qed.
Print Assumptions C19_touches_the_files_in_use.

(** C19: a round of the thread touches all files that were in use at its start, with the directories they are in, and nothing else; whatever the
    program does at the same time. *)
Theorem C19_round : forall ex before es, let w := run before (start ex) in
  t_pc w = Loop -> t_pc (run (Step :: es) w) <> Died ->
  exists all touched,
    (forall g, In g all <-> exists f, In f (dkeys (t_files w)) /\ (g = f \/ ancestor g f)) /\
    t_log (run (Step :: es) w) = t_log w ++ touched /\
    (steps es = length all -> touched = all) /\
    (length all <= steps es -> forall g, In g all -> In g touched) /\
    (steps es <= length all -> forall g, In g touched -> In g all).
Proof.
  cbv zeta. intros ex before es. set (w := run before (start ex)). intros Hl Hd. change (run (Step :: es) w) with (run es (thread_step w)) in *. unfold thread_step in *. rewrite Hl in *.
  destruct (snapshot (dkeys (t_files w)) []) as [all|] eqn:Es; [|exfalso; apply Hd; now apply died_stays].
  destruct (round_spec es (mk_world (t_files w) (Touching all) (t_exists w) (t_log w)) all eq_refl Hd) as (l&E&A&B).
  exists all, l. split.
  { intros g. rewrite (snapshot_In _ _ _ Es g). split; [intros [[]|H]; exact H|auto]. }
  split; [exact E|]. split; [|split].
  - intros Hs. rewrite (B ltac:(lia)), Hs. apply firstn_all.
  - intros Hs g Hg. destruct (A Hs) as (l'&->). apply in_or_app. now left.
  - intros Hs g Hg. rewrite (B Hs) in Hg. rewrite <- (firstn_skipn (steps es) all). apply in_or_app. now left.
Qed.
Print Assumptions C19_round.

(** C19: when no file is ever removed, the thread lives for ever. *)
Theorem C19_thread_lives : forall ex es, well_behaved ex es -> t_pc (run es (start ex)) <> Died.
Proof. exact survives. Qed.
Print Assumptions C19_thread_lives.

Local Open Scope string_scope.
Definition lockf : path := ["data"; "a.hdf.lock"].
Definition dataf : path := ["data"; "a.hdf"].
Definition ex_fs (f : path) : bool := existsb (path_eqb f) [[]; ["data"]; lockf; dataf].
Definition ex_es : list event := [Acquire [lockf]; Step; Acquire [dataf]; Step; Release [lockf]; Step; Step; Step; Step; Step; Acquire [dataf]].
Example C19_ex :
  let w := run ex_es (start ex_fs) in
  (dkeys (t_files w), t_log w) = ([dataf], [lockf; ["data"]; dataf; ["data"]]) /\ acquired dataf ex_es = 2%Z /\ t_pc w = Touching [].
Proof. vm_compute. repeat split. Qed.

(** C19, finding: a file that is released and then removed (as every lock file is, by [_copy_file_if_needed]) while the thread is in the middle of a round
    ends the thread. From then on no file is kept alive any more, although files in use are never removed. *)
Theorem C19_thread_dies_refuted :
  ~ (forall ex es, used_files_stay ex es -> t_pc (run es (start ex)) <> Died) /\
  (exists ex es, used_files_stay ex es /\ forall es', t_log (run (es ++ es') (start ex)) = []).
Proof.
  assert (Hst : used_files_stay ex_fs [Acquire [lockf]; Step; Release [lockf]; Unlink lockf; Step]).
  { split.
    - intros pre f post g E. repeat (destruct pre as [|? pre]; [first [discriminate E|injection E as <- _; cbn; intros []]|injection E as <- E]); destruct pre; discriminate.
    - intros pre fs post f g E. destruct pre as [|? pre]; [injection E as <- _|].
      + intros [<-|[]]. split; [discriminate|]. intros [->|(Hn&rest&Hr&E)]; [reflexivity|].
        destruct g as [|a [|b [|c g]]]; [congruence| | |]; injection E as <-; [|subst b; destruct rest; [congruence|discriminate]|destruct g; discriminate]. reflexivity.
      + exfalso. injection E as <- E. do 4 (destruct pre as [|? pre]; [discriminate|injection E as <- E]). destruct pre; discriminate. }
  split.
  - intros H. apply (H ex_fs _ Hst). reflexivity.
  - exists ex_fs, [Acquire [lockf]; Step; Release [lockf]; Unlink lockf; Step]. split; [exact Hst|]. intros es'.
    unfold run. rewrite fold_left_app. set (w := fold_left _ _ (start ex_fs)).
    assert (Hw : t_pc w = Died /\ t_log w = []) by (split; reflexivity). clearbody w. revert w Hw. induction es' as [|e es' IH]; intros w [Hp Hl]; [exact Hl|].
    cbn. apply IH. destruct e; cbn; rewrite ?Hp; auto. unfold thread_step. rewrite Hp. auto.
Qed.
Print Assumptions C19_thread_dies_refuted.

(** C19, finding: caching a file of the root directory "/" makes the program acquire the cache directory itself, which ends the thread too. *)
Theorem C19_root_file_refuted :
  ~ (forall ex es, (forall f, ~ In (Unlink f) es) -> (forall f, ex f = true) -> t_pc (run es (start ex)) <> Died).
Proof. intros H. apply (H (fun _ => true) [Acquire [[]]; Step]); [intros f [E|[E|[]]]; discriminate|reflexivity|reflexivity]. Qed.
Print Assumptions C19_root_file_refuted.
