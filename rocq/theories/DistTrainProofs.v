(** Proofs about distributed training. *)
From Verif Require Import Base ListLemmas DistTrainModel DistTrainSpec.

Section Proofs.
Context {P G B : Type}.
Variable cfg : config P G B.
Notation worker := (worker P G B).
Notation local_step := (local_step cfg).
Notation collective := (collective cfg).
Notation step := (step cfg).
Notation steps := (steps cfg).

(** ** Local runs *)
Inductive lsteps : nat -> worker -> worker -> Prop :=
| lsteps_refl : forall w, lsteps 0 w w
| lsteps_cons : forall n w w1 w2, local_step w = Some w1 -> lsteps n w1 w2 -> lsteps (S n) w w2.
Definition blocked (w : worker) : Prop := local_step w = None.
Lemma lsteps_blocked : forall n w c, lsteps n w c -> blocked w -> n = 0 /\ c = w.
Proof. intros n w c H Hb. destruct H as [|n w w1 w2 H1 H2]; [auto|]. unfold blocked in Hb. congruence. Qed.
Lemma lsteps_next : forall n w c w', lsteps n w c -> blocked c -> local_step w = Some w' -> exists n', n = S n' /\ lsteps n' w' c.
Proof. intros n w c w' H Hb Hs. destruct H as [w|n w w1 w2 H1 H2]; [unfold blocked in Hb; congruence|]. rewrite Hs in H1. injection H1 as <-. eauto. Qed.
Lemma lsteps_trans : forall n a b, lsteps n a b -> forall m c, lsteps m b c -> lsteps (n + m) a c.
Proof. intros n a b H. induction H as [|n w w1 w2 H1 H2 IH]; intros m c Hc; [exact Hc|]. cbn [Nat.add]. econstructor; [exact H1|apply IH; exact Hc]. Qed.
Inductive lrun : nat -> list worker -> list worker -> Prop :=
| lrun_nil : lrun 0 [] []
| lrun_cons : forall k n w c ws cs, lsteps k w c -> lrun n ws cs -> lrun (k + n) (w :: ws) (c :: cs).
Lemma lrun_map : forall A (f g : A -> worker) xs, (forall x, In x xs -> exists n, lsteps n (f x) (g x)) -> exists n, lrun n (map f xs) (map g xs).
Proof.
  intros A f g. induction xs as [|x xs IH]; intros H; [exists 0; constructor|]. destruct (H x (or_introl eq_refl)) as (k & Hk).
  destruct IH as (n & Hn); [intros y Hy; apply H; right; exact Hy|]. exists (k + n). cbn [map]. constructor; assumption.
Qed.
Lemma lrun_refl : forall ws, lrun 0 ws ws.
Proof. induction ws as [|w ws IH]; [constructor|]. apply (lrun_cons 0 0); [constructor|exact IH]. Qed.
Lemma lrun_trans : forall n a b, lrun n a b -> forall m c, lrun m b c -> exists k, lrun k a c.
Proof.
  intros n a b H. induction H as [|k n w c ws cs H1 H2 IH]; intros m d Hd.
  - inversion Hd; subst. exists 0. constructor.
  - inversion Hd as [|k' n' w' c' ws' cs' H3 H4]; subst. destruct (IH _ _ H4) as (j & J). eexists. constructor; [eapply lsteps_trans; eassumption|exact J].
Qed.
Lemma lrun_blocked : forall n ws cs, lrun n ws cs -> Forall blocked ws -> n = 0 /\ cs = ws.
Proof.
  intros n ws cs H Hb. induction H as [|k n w c ws cs H1 H2 IH]; [auto|]. inversion Hb; subst. destruct (lsteps_blocked _ _ _ H1) as (-> & ->); [assumption|].
  destruct IH as (-> & ->); auto.
Qed.
Lemma lrun_local : forall n l w w' r cs, lrun n (l ++ w :: r) cs -> Forall blocked cs -> local_step w = Some w' -> exists n', n = S n' /\ lrun n' (l ++ w' :: r) cs.
Proof.
  intros n l w w' r cs. revert n cs. induction l as [|x l IH]; intros n cs H Hb Hs; cbn [app] in *; inversion H as [|k m ? c ? cs' H1 H2]; subst; inversion Hb as [|? ? Hb1 Hb2]; subst.
  - destruct (lsteps_next _ _ _ _ H1 Hb1 Hs) as (k' & -> & K). exists (k' + m). split; [reflexivity|]. constructor; assumption.
  - destruct (IH _ _ H2 Hb2 Hs) as (m' & -> & M). exists (k + m'). split; [lia|]. constructor; assumption.
Qed.
Lemma lrun_progress : forall n ws cs, lrun (S n) ws cs -> exists l w w' r, ws = l ++ w :: r /\ local_step w = Some w'.
Proof.
  intros n ws cs H. remember (S n) as m eqn:E. revert n E. induction H as [|k m w c ws cs H1 H2 IH]; intros n E; [discriminate E|].
  destruct H1 as [w|k w w1 w2 H1 H3].
  - destruct (IH n E) as (l & x & x' & r & -> & Hx). exists (w :: l), x, x', r. auto.
  - exists [], w, w1, ws. auto.
Qed.

(** ** Collective operations need all processes *)
Lemma forallb_blocked : forall f, (forall w : worker, f w = true -> blocked w) -> forall ws, forallb f ws = true -> Forall blocked ws.
Proof. intros f Hf ws H. apply Forall_forall. intros w Hin. apply Hf. rewrite forallb_forall in H. apply H. exact Hin. Qed.
Lemma collective_blocked : forall ws ws', collective ws = Some ws' -> Forall blocked ws.
Proof.
  intros ws ws' H. unfold DistTrainModel.collective in H.
  destruct (forallb is_has_data ws) eqn:E1; [apply (forallb_blocked is_has_data); [|exact E1]; intros w Hw; unfold is_has_data in Hw; unfold blocked, DistTrainModel.local_step; destruct (w_pc w); try discriminate Hw; reflexivity|].
  destruct (forallb is_grad ws) eqn:E2; [apply (forallb_blocked is_grad); [|exact E2]; intros w Hw; unfold is_grad in Hw; unfold blocked, DistTrainModel.local_step; destruct (w_pc w); try discriminate Hw; reflexivity|].
  destruct (forallb is_param ws) eqn:E3; [apply (forallb_blocked is_param); [|exact E3]; intros w Hw; unfold is_param in Hw; unfold blocked, DistTrainModel.local_step; destruct (w_pc w); try discriminate Hw; reflexivity|].
  destruct (forallb is_flag ws) eqn:E4; [apply (forallb_blocked is_flag); [|exact E4]; intros w Hw; unfold is_flag in Hw; unfold blocked, DistTrainModel.local_step; destruct (w_pc w); try discriminate Hw; reflexivity|].
  destruct (forallb is_scores ws) eqn:E5; [apply (forallb_blocked is_scores); [|exact E5]; intros w Hw; unfold is_scores in Hw; unfold blocked, DistTrainModel.local_step; destruct (w_pc w); try discriminate Hw; reflexivity|discriminate H].
Qed.
Lemma finished_stuck : forall ws, ws <> [] -> Forall finished ws -> collective ws = None.
Proof.
  intros ws Hne H. destruct ws as [|w ws]; [congruence|]. inversion H as [|? ? H1 _]; subst. unfold finished in H1.
  unfold DistTrainModel.collective. cbn [forallb]. unfold is_has_data at 1, is_grad at 1, is_param at 1, is_flag at 1, is_scores at 1. rewrite H1. reflexivity.
Qed.
Lemma finished_blocked : forall ws, Forall finished ws -> Forall blocked ws.
Proof. intros ws H. eapply Forall_impl; [|exact H]. intros w Hw. unfold finished in Hw. unfold blocked, DistTrainModel.local_step. rewrite Hw. reflexivity. Qed.

(** ** The run in which everybody waits for everybody *)
Section Good.
Variable F : list worker -> Prop.
Inductive good : list worker -> Prop :=
| good_end : forall ws, ws <> [] -> Forall finished ws -> F ws -> good ws
| good_fire : forall ws ws1 n ws2, ws <> [] -> collective ws = Some ws1 -> lrun n ws1 ws2 -> good ws2 -> good ws.
Lemma good_fire' : forall ws ws1 ws2, ws <> [] -> collective ws = Some ws1 -> (exists n, lrun n ws1 ws2) -> good ws2 -> good ws.
Proof. intros ws ws1 ws2 Hne Hc (n & Hn) Hg. eapply good_fire; eassumption. Qed.
Lemma good_blocked : forall c, good c -> Forall blocked c.
Proof. intros c H. destruct H as [ws _ H _|ws ws1 n ws2 _ H _ _]; [apply finished_blocked; exact H|eapply collective_blocked; exact H]. Qed.
Definition inv (s : list worker) : Prop := exists n c, lrun n s c /\ good c.
Lemma inv_step : forall s s', inv s -> step s s' -> inv s'.
Proof.
  intros s s' (n & c & Hr & Hg) Hs. destruct Hs as [l w w' r H|ws ws' H].
  - destruct (lrun_local _ _ _ _ _ _ Hr (good_blocked _ Hg) H) as (n' & _ & R). exists n', c. auto.
  - destruct (lrun_blocked _ _ _ Hr (collective_blocked _ _ H)) as (_ & ->). destruct Hg as [ws Hne Hf _|ws ws1 m ws2 _ Hc Hl Hg].
    + rewrite (finished_stuck _ Hne Hf) in H. discriminate H.
    + rewrite H in Hc. injection Hc as ->. exists m, ws2. auto.
Qed.
Lemma inv_steps : forall s s', steps s s' -> inv s -> inv s'.
Proof. intros s s' H. induction H as [|a b c H1 H2 IH]; intros Hi; [exact Hi|]. apply IH. eapply inv_step; eassumption. Qed.
Theorem inv_progress : forall s, inv s -> Forall finished s \/ exists s', step s s'.
Proof.
  intros s (n & c & Hr & Hg). destruct n as [|n].
  - assert (Hsc : c = s). { clear Hg. remember 0 as z eqn:E. induction Hr as [|k n w c ws cs H1 H2 IH]; [reflexivity|]. inversion H1; subst; [|discriminate E]. rewrite IH by exact E. reflexivity. }
    subst c. destruct Hg as [ws _ Hf _|ws ws1 m ws2 _ Hc _ _]; [left; exact Hf|right; exists ws1; constructor; exact Hc].
  - right. destruct (lrun_progress _ _ _ Hr) as (l & w & w' & r & -> & H). eexists. apply step_local. exact H.
Qed.
Theorem inv_final : forall s, inv s -> Forall finished s -> F s.
Proof.
  intros s (n & c & Hr & Hg) Hf. destruct (lrun_blocked _ _ _ Hr (finished_blocked _ Hf)) as (_ & ->).
  destruct Hg as [ws _ _ H|ws ws1 m ws2 Hne Hc _ _]; [exact H|]. rewrite finished_stuck in Hc; [discriminate Hc|exact Hne|exact Hf].
Qed.
Lemma good_acc : forall c, good c -> forall n s, lrun n s c -> Acc (fun b a => step a b) s.
Proof.
  intros c H. induction H as [ws Hne Hf _|ws ws1 m ws2 Hne Hc Hl Hg IH]; induction n as [n IHn] using lt_wf_ind; intros s Hr; constructor; intros s' Hs.
  - destruct Hs as [l w w' r H|s s' H].
    + destruct (lrun_local _ _ _ _ _ _ Hr (finished_blocked _ Hf) H) as (n' & -> & R). apply (IHn n'); [lia|exact R].
    + destruct (lrun_blocked _ _ _ Hr (collective_blocked _ _ H)) as (_ & ->). rewrite (finished_stuck _ Hne Hf) in H. discriminate H.
  - destruct Hs as [l w w' r H|s s' H].
    + destruct (lrun_local _ _ _ _ _ _ Hr (collective_blocked _ _ Hc) H) as (n' & -> & R). apply (IHn n'); [lia|exact R].
    + destruct (lrun_blocked _ _ _ Hr (collective_blocked _ _ H)) as (_ & ->). rewrite H in Hc. injection Hc as ->. apply (IH m). exact Hl.
Qed.
Theorem inv_terminates : forall s, inv s -> ~ exists f : nat -> list worker, f 0 = s /\ forall n, step (f n) (f (S n)).
Proof.
  intros s (n & c & Hr & Hg). pose proof (good_acc c Hg n s Hr) as Ha. clear Hr Hg. induction Ha as [s _ IH]. intros (f & E & Hf). subst s.
  apply (IH (f 1)); [apply Hf|]. exists (fun k => f (S k)). split; [reflexivity|]. intros k. apply Hf.
Qed.

(** ** The evaluation *)
Definition all_at (ws : list worker) (q : worker -> pc B) : list worker := map (fun w => at_pc w (q w)) ws.
Lemma at_pc_twice : forall (w : worker) q q', at_pc (at_pc w q) q' = at_pc w q'.
Proof. reflexivity. Qed.
Lemma lsteps_one : forall w w', local_step w = Some w' -> lsteps 1 w w'.
Proof. intros w w' H. econstructor; [exact H|constructor]. Qed.
Definition flag_pc (ds : list nat) (k : nat) (v : bool) (w : worker) : pc B := if w_rank w =? 0 then AtSend ds k v else AtRecv ds.
Definition ranked (ws : list worker) : Prop := map w_rank ws = seq 0 (length ws) /\ ws <> [].
Lemma forallb_all_at : forall f ws q, (forall w, f (at_pc w (q w)) = true) -> forallb f (all_at ws q) = true.
Proof. intros f ws q H. unfold all_at. rewrite forallb_forall. intros x Hx. apply in_map_iff in Hx. destruct Hx as (w & <- & _). apply H. Qed.
Lemma forallb_not : forall f (ws : list worker) q, ws <> [] -> (forall w, f (at_pc w (q w)) = false) -> forallb f (all_at ws q) = false.
Proof. intros f [|w ws] q Hne H; [congruence|]. cbn. rewrite H. reflexivity. Qed.
Lemma sent_flag : forall ws ds k v, ranked ws -> sent (all_at ws (flag_pc ds k v)) = Some v.
Proof.
  intros [|w ws] ds k v (Hr & Hne); [congruence|]. cbn [map length seq] in Hr. injection Hr as Hw _. unfold sent, all_at. cbn [map filter].
  cbn [at_pc w_rank]. rewrite Hw. cbn [Nat.eqb]. unfold flag_pc. cbn [at_pc w_pc]. rewrite Hw. reflexivity.
Qed.
Lemma collective_flag : forall ws ds k v, ranked ws -> collective (all_at ws (flag_pc ds k v)) = Some (map (after_flag v) (all_at ws (flag_pc ds k v))).
Proof.
  intros ws ds k v Hr. pose proof (proj2 Hr) as Hne. unfold DistTrainModel.collective.
  rewrite (forallb_not is_has_data) by (try exact Hne; intros w; unfold is_has_data, flag_pc; cbn [at_pc w_pc]; destruct (w_rank w =? 0); reflexivity).
  rewrite (forallb_not is_grad) by (try exact Hne; intros w; unfold is_grad, flag_pc; cbn [at_pc w_pc]; destruct (w_rank w =? 0); reflexivity).
  rewrite (forallb_not is_param) by (try exact Hne; intros w; unfold is_param, flag_pc; cbn [at_pc w_pc]; destruct (w_rank w =? 0); reflexivity).
  rewrite (forallb_all_at is_flag) by (intros w; unfold is_flag, flag_pc; cbn [at_pc w_pc w_rank]; destruct (w_rank w =? 0) eqn:E; cbn [w_rank]; rewrite ?E; reflexivity).
  rewrite sent_flag by exact Hr. reflexivity.
Qed.
Lemma all_at_ne : forall ws q, ws <> [] -> all_at ws q <> [].
Proof. intros [|w ws] q H; [congruence|discriminate]. Qed.
(** Rank 0 runs until the next multiple of 100 or to the end. *)
Lemma eval_local : forall w n ds m k, m = n - k -> k <= n -> 0 < n -> w_rank w = 0 -> exists j v c, lsteps c (at_pc w (EvalStep (n :: ds) k)) (at_pc w (AtSend (n :: ds) j v)) /\
  (v = true /\ k <= j < n \/ v = false /\ j = n).
Proof.
  intros w n ds. induction m as [|m IH]; intros k Hm Hk Hn Hw.
  - exists k, false, 1. split; [|right; split; [reflexivity|lia]]. apply lsteps_one. unfold DistTrainModel.local_step. cbn [at_pc w_pc].
    replace (k <? n) with false by (symmetry; apply Nat.ltb_ge; lia). replace (0 <? n) with true by (symmetry; apply Nat.ltb_lt; exact Hn). reflexivity.
  - destruct (k mod 100 =? 0) eqn:E.
    + exists k, true, 1. split; [|left; split; [reflexivity|lia]]. apply lsteps_one. unfold DistTrainModel.local_step. cbn [at_pc w_pc].
      replace (k <? n) with true by (symmetry; apply Nat.ltb_lt; lia). rewrite E. reflexivity.
    + destruct (IH (S k) ltac:(lia) ltac:(lia) Hn Hw) as (j & v & c & H1 & H2). exists j, v, (S c). split.
      * econstructor; [|exact H1]. unfold DistTrainModel.local_step. cbn [at_pc w_pc]. replace (k <? n) with true by (symmetry; apply Nat.ltb_lt; lia). rewrite E. reflexivity.
      * destruct H2 as [(-> & H2)|H2]; [left; split; [reflexivity|lia]|right; exact H2].
Qed.
Definition eval_done (ws : list worker) : list worker := all_at ws (fun _ => Finished).
Lemma good_scores : forall ws, ws <> [] -> F (eval_done ws) -> good (all_at ws (fun _ => AtScores)).
Proof.
  intros ws Hne HF. assert (Hc : collective (all_at ws (fun _ => AtScores)) = Some (eval_done ws)).
  { unfold DistTrainModel.collective. rewrite (forallb_not is_has_data), (forallb_not is_grad), (forallb_not is_param), (forallb_not is_flag), (forallb_all_at is_scores) by (try exact Hne; reflexivity).
    unfold all_at, eval_done, all_at. rewrite map_map. reflexivity. }
  eapply good_fire; [apply all_at_ne; exact Hne|exact Hc|apply lrun_refl|]. apply good_end; [apply all_at_ne; exact Hne| |exact HF].
  apply Forall_forall. intros x Hx. apply in_map_iff in Hx. destruct Hx as (w & <- & _). reflexivity.
Qed.
(** From the loop over the datasets on. *)
Lemma good_eval : forall ds ws, ranked ws -> Forall (fun n => 0 < n) ds -> F (eval_done ws) -> exists n c, lrun n (all_at ws (fun _ => EvalNext ds)) c /\ good c.
Proof.
  induction ds as [|n ds IH]; intros ws Hr Hds HF.
  - destruct (lrun_map _ (fun w => at_pc w (EvalNext [])) (fun w => at_pc w AtScores) ws) as (m & Hm); [intros w _; exists 1; apply lsteps_one; reflexivity|].
    exists m, (all_at ws (fun _ => AtScores)). split; [exact Hm|]. apply good_scores; [apply Hr|exact HF].
  - inversion Hds as [|? ? Hn Hds']; subst. specialize (IH ws Hr Hds' HF).
    destruct ws as [|w0 ws]; [destruct Hr; congruence|].
    assert (Hw0 : w_rank w0 = 0) by (destruct Hr as (Hr & _); cbn in Hr; injection Hr as -> _; reflexivity).
    assert (Hws : Forall (fun w => w_rank w <> 0) ws).
    { destruct Hr as (Hr & _). cbn [map length seq] in Hr. injection Hr as _ Hr. apply Forall_forall. intros w Hin E. apply (in_map w_rank) in Hin. rewrite Hr, E in Hin. apply in_seq in Hin. lia. }
    assert (Hf : forall m j v, j <= n -> m = n - j -> (v = true /\ j < n \/ v = false /\ j = n) -> good (all_at (w0 :: ws) (flag_pc (n :: ds) j v))).
    { induction m as [m IHm] using lt_wf_ind. intros j v Hj Hm [(-> & Hlt)|(-> & Heq)].
      - destruct (eval_local w0 n ds (n - S j) (S j) eq_refl ltac:(lia) Hn Hw0) as (j' & v' & c & H1 & H2).
        eapply good_fire; [apply all_at_ne; discriminate|apply collective_flag; exact Hr| |].
        + instantiate (1 := all_at (w0 :: ws) (flag_pc (n :: ds) j' v')). instantiate (1 := c + 0). cbn [all_at map]. apply lrun_cons.
          * unfold flag_pc. cbn [at_pc w_rank]. rewrite Hw0. cbn [Nat.eqb]. unfold after_flag. cbn [at_pc w_pc]. exact H1.
          * replace (map (after_flag true) (map (fun w => at_pc w (flag_pc (n :: ds) j true w)) ws)) with (map (fun w => at_pc w (flag_pc (n :: ds) j' v' w)) ws); [apply lrun_refl|].
            rewrite map_map. apply map_ext_in. intros w Hin. rewrite Forall_forall in Hws. specialize (Hws w Hin). apply Nat.eqb_neq in Hws.
            unfold flag_pc. rewrite Hws. unfold after_flag. cbn [at_pc w_pc]. reflexivity.
        + apply (IHm (n - j')); [lia|lia|reflexivity|]. destruct H2 as [(-> & H2)|(-> & H2)]; [left; split; [reflexivity|lia]|right; auto].
      - destruct IH as (k & c & H1 & H2). eapply good_fire; [apply all_at_ne; discriminate|apply collective_flag; exact Hr| |exact H2].
        replace (map (after_flag false) (all_at (w0 :: ws) (flag_pc (n :: ds) j false))) with (all_at (w0 :: ws) (fun _ => EvalNext ds)); [exact H1|].
        unfold all_at. rewrite map_map. apply map_ext. intros w. unfold flag_pc, after_flag. cbn [at_pc w_pc]. destruct (w_rank w =? 0); reflexivity. }
    destruct (eval_local w0 n ds n 0 ltac:(lia) ltac:(lia) Hn Hw0) as (j & v & c & H1 & H2).
    destruct (lrun_map _ (fun w => at_pc w (EvalNext (n :: ds))) (fun w => at_pc w (flag_pc (n :: ds) j v w)) ws) as (m & Hm).
    { intros w Hin. rewrite Forall_forall in Hws. specialize (Hws w Hin). apply Nat.eqb_neq in Hws. exists 1. apply lsteps_one. unfold DistTrainModel.local_step, flag_pc. cbn [at_pc w_pc w_rank]. rewrite Hws. reflexivity. }
    exists (S c + m), (all_at (w0 :: ws) (flag_pc (n :: ds) j v)). split.
    + cbn [all_at map]. constructor; [|exact Hm]. unfold flag_pc. rewrite Hw0. cbn [Nat.eqb]. econstructor; [|exact H1].
      unfold DistTrainModel.local_step. cbn [at_pc w_pc w_rank]. rewrite Hw0. reflexivity.
    + apply (Hf (n - j)); [destruct H2 as [(_ & H2)|(_ & H2)]; lia|reflexivity|]. destruct H2 as [(-> & H2)|(-> & H2)]; [left; split; [reflexivity|lia]|right; auto].
Qed.

(** ** The training steps *)
Hypothesis Hagree : agree cfg.
Hypothesis Heval : Forall (fun n => 0 < n) (c_eval cfg).
(** All processes are at the head of the loop, with the same counters. *)
Definition uniform (r : nat) (z : bool) (c : nat) (ws : list worker) : Prop :=
  ranked ws /\ Forall (fun w => w_pc w = Fetch /\ w_step w = r /\ w_zero w = z /\ w_count w = c) ws.
Definition first_backward (w : worker) : worker := match w_todo w with b :: _ => backward cfg (fetch w) b | [] => w end.
Definition perform (r : nat) (z : bool) (c : nat) : bool := c_accum cfg 0 r <=? (if z then 0 else c) + 1.
Definition grad_sync (pf : bool) : bool := match c_reduce cfg with RGrad => pf || c_eager cfg | RParam _ => false end.
Definition param_sync (r : nat) : bool := match c_reduce cfg with RGrad => false | RParam n => r mod n =? n - 1 end.
(** One step of all processes. *)
Definition sync_step (r : nat) (z : bool) (c : nat) (ws : list worker) : list worker :=
  let ws1 := map first_backward ws in
  let ws2 := if grad_sync (perform r z c) then map (after_grad (c_gavg cfg (map w_grad ws1))) ws1 else ws1 in
  let ws3 := map (update cfg) ws2 in
  if param_sync r then map (after_param (c_pavg cfg (map w_param ws3))) (all_at ws3 (fun _ => AtParam)) else map next_step ws3.
Lemma ranked_map : forall f ws, (forall w, w_rank (f w) = w_rank w) -> ranked ws -> ranked (map f ws).
Proof.
  intros f ws Hf (H & Hne). split; [rewrite map_map, map_length; rewrite <- H; apply map_ext; exact Hf|destruct ws; [congruence|discriminate]].
Qed.
Lemma sync_uniform : forall r z c ws, uniform r z c ws -> Forall (fun w => w_todo w <> []) ws -> uniform (S r) (perform r z c) ((if z then 0 else c) + 1) (sync_step r z c ws).
Proof.
  intros r z c ws (Hr & Hu) Ht. unfold sync_step.
  assert (R1 : ranked (map first_backward ws)) by (apply ranked_map; [|exact Hr]; intros w; unfold first_backward; destruct (w_todo w); reflexivity).
  assert (U1 : Forall (fun w => w_step w = r /\ w_zero w = perform r z c /\ w_count w = (if z then 0 else c) + 1) (map first_backward ws)).
  { apply Forall_map. rewrite Forall_forall in *. intros w Hin. destruct (Hu w Hin) as (_ & <- & <- & <-). specialize (Ht w Hin). unfold first_backward. destruct (w_todo w) as [|b bs]; [congruence|].
    unfold backward. cbn [w_step w_zero w_count fetch w_rank]. split; [reflexivity|]. split; [|reflexivity]. unfold perform. rewrite (Hagree (w_rank w) 0). reflexivity. }
  set (ws1 := map first_backward ws) in *. clearbody ws1.
  set (ws2 := if grad_sync (perform r z c) then map (after_grad (c_gavg cfg (map w_grad ws1))) ws1 else ws1).
  assert (R2 : ranked ws2) by (unfold ws2; destruct (grad_sync _); [apply ranked_map; [reflexivity|exact R1]|exact R1]).
  assert (U2 : Forall (fun w => w_step w = r /\ w_zero w = perform r z c /\ w_count w = (if z then 0 else c) + 1) ws2) by (unfold ws2; destruct (grad_sync _); [apply Forall_map; exact U1|exact U1]).
  clearbody ws2. destruct (param_sync r).
  - split; [unfold all_at; repeat (apply ranked_map; [reflexivity|]); exact R2|]. unfold all_at. rewrite !map_map. apply Forall_map. eapply Forall_impl; [|exact U2]. intros w (H1 & H2 & H3). cbn. auto.
  - split; [repeat (apply ranked_map; [reflexivity|]); exact R2|]. rewrite map_map. apply Forall_map. eapply Forall_impl; [|exact U2]. intros w (H1 & H2 & H3). cbn. auto.
Qed.
Lemma collective_has_data : forall ws, ws <> [] -> collective (map fetch ws) = Some (map (after_has_data cfg (forallb (fun w => match w_todo w with [] => false | _ => true end) ws)) (map fetch ws)).
Proof.
  intros ws Hne. unfold DistTrainModel.collective. replace (forallb is_has_data (map fetch ws)) with true; [f_equal; f_equal; f_equal|].
  - clear Hne. induction ws as [|w ws IH]; [reflexivity|]. cbn [map forallb]. rewrite IH. f_equal. unfold has_data. cbn [fetch w_pc]. destruct (w_todo w); reflexivity.
  - symmetry. apply forallb_forall. intros x Hx. apply in_map_iff in Hx. destruct Hx as (w & <- & _). reflexivity.
Qed.
Lemma map_ne : forall A C (f : A -> C) l, l <> [] -> map f l <> [].
Proof. intros A C f [|x l] H; [congruence|discriminate]. Qed.
Lemma step_good : forall r z c ws, uniform r z c ws -> Forall (fun w => w_todo w <> []) ws -> good (map fetch (sync_step r z c ws)) -> good (map fetch ws).
Proof.
  intros r z c ws (Hr & Hu) Ht Hg. pose proof (proj2 Hr) as Hne.
  assert (E : forallb (fun w : worker => match w_todo w with [] => false | _ => true end) ws = true).
  { apply forallb_forall. intros w Hin. rewrite Forall_forall in Ht. specialize (Ht w Hin). destruct (w_todo w); [congruence|reflexivity]. }
  pose proof (collective_has_data ws Hne) as Hc. rewrite E in Hc.
  (* what the processes do after the gradients are there *)
  assert (Hpf : Forall (fun w => w_zero (first_backward w) = perform r z c /\ w_step (first_backward w) = r /\
     lsteps 1 (after_has_data cfg true (fetch w)) (first_backward w) /\ w_pc (first_backward w) = if grad_sync (perform r z c) then AtGrad else Update) ws).
  { rewrite Forall_forall in *. intros w Hin. destruct (Hu w Hin) as (_ & <- & <- & <-). specialize (Ht w Hin). unfold after_has_data, first_backward. cbn [fetch w_pc]. destruct (w_todo w) as [|b bs] eqn:Et; [congruence|]. cbn [hd_error].
    unfold backward. cbn [w_step w_zero w_count fetch w_rank w_pc]. unfold perform. rewrite (Hagree (w_rank w) 0). split; [reflexivity|]. split; [reflexivity|]. split; [|reflexivity].
    apply lsteps_one. unfold DistTrainModel.local_step. cbn [at_pc w_pc fetch]. unfold backward. cbn [at_pc w_step w_zero w_count fetch w_rank w_pc w_todo w_param w_grad]. rewrite (Hagree (w_rank w) 0). reflexivity. }
  set (ws1 := map first_backward ws) in *.
  assert (Hend : forall ws2, ws2 <> [] -> Forall (fun w => w_pc w = Update /\ w_step w = r) ws2 ->
    (let ws3 := map (update cfg) ws2 in good (map fetch (if param_sync r then map (after_param (c_pavg cfg (map w_param ws3))) (all_at ws3 (fun _ => AtParam)) else map next_step ws3))) ->
    exists n c', lrun n ws2 c' /\ good c').
  { intros ws2 Hne2 Hu2 Hg2. cbv zeta in Hg2. destruct (param_sync r) eqn:Eps.
    - destruct (lrun_map _ (fun w => w) (fun w => at_pc (update cfg w) AtParam) ws2) as (n & Hn).
      { intros w Hin. rewrite Forall_forall in Hu2. destruct (Hu2 w Hin) as (Hp & Hs). exists 2. econstructor; [unfold DistTrainModel.local_step; rewrite Hp; reflexivity|]. apply lsteps_one.
        unfold DistTrainModel.local_step. cbn [update w_pc w_step]. unfold param_sync in Eps. destruct (c_reduce cfg); [discriminate Eps|]. rewrite Hs, Eps. reflexivity. }
      rewrite map_id in Hn. eexists n, _. split; [exact Hn|]. eapply (good_fire' _ (map (after_param (c_pavg cfg (map w_param (map (update cfg) ws2)))) (all_at (map (update cfg) ws2) (fun _ => AtParam)))); [apply map_ne; exact Hne2| | |exact Hg2].
      + unfold DistTrainModel.collective, all_at. rewrite map_map.
        assert (G1 : forall f : worker -> bool, (forall w, f (at_pc (update cfg w) AtParam) = false) -> forallb f (map (fun w => at_pc (update cfg w) AtParam) ws2) = false) by (intros f Hf; destruct ws2; [congruence|]; cbn; rewrite Hf; reflexivity).
        rewrite (G1 is_has_data), (G1 is_grad) by reflexivity. replace (forallb is_param _) with true by (symmetry; apply forallb_forall; intros x Hx; apply in_map_iff in Hx; destruct Hx as (w & <- & _); reflexivity).
        rewrite !map_map. reflexivity.
      + match goal with |- exists n, lrun n ?l _ => pose proof (lrun_map _ (fun w => w) fetch l) as X end. rewrite map_id in X. apply X. intros x Hx. apply in_map_iff in Hx. destruct Hx as (w & <- & _). exists 1. apply lsteps_one. reflexivity.
    - destruct (lrun_map _ (fun w => w) (fun w => fetch (next_step (update cfg w))) ws2) as (n & Hn).
      { intros w Hin. rewrite Forall_forall in Hu2. destruct (Hu2 w Hin) as (Hp & Hs). exists 3. econstructor; [unfold DistTrainModel.local_step; rewrite Hp; reflexivity|].
        apply (lsteps_cons 1 _ (next_step (update cfg w))); [|apply lsteps_one; reflexivity]. unfold DistTrainModel.local_step. cbn [update w_pc w_step]. unfold param_sync in Eps. destruct (c_reduce cfg); [reflexivity|]. rewrite Hs, Eps. reflexivity. }
      rewrite map_id in Hn. eexists n, _. split; [exact Hn|]. rewrite !map_map in Hg2. exact Hg2. }
  assert (Hne1 : ws1 <> []) by (apply map_ne; exact Hne).
  assert (Hl1 : exists n, lrun n (map (after_has_data cfg true) (map fetch ws)) ws1).
  { rewrite map_map. apply lrun_map. intros w Hin. exists 1. rewrite Forall_forall in Hpf. apply (Hpf w Hin). }
  unfold sync_step in Hg. fold ws1 in Hg. cbv zeta in Hg. destruct (grad_sync (perform r z c)) eqn:Egs.
  - eapply good_fire'; [apply map_ne; exact Hne|exact Hc|exact Hl1|].
    destruct (Hend (map (after_grad (c_gavg cfg (map w_grad ws1))) ws1)) as (n & c' & H1 & H2); [apply map_ne; exact Hne1| |exact Hg|].
    + apply Forall_map. unfold ws1. apply Forall_map. eapply Forall_impl; [|exact Hpf]. intros w (_ & Hs & _). cbn [after_grad w_pc w_step]. auto.
    + eapply good_fire; [exact Hne1| |exact H1|exact H2]. assert (G0 : Forall (fun w => w_pc w = AtGrad) ws1) by (unfold ws1; apply Forall_map; eapply Forall_impl; [|exact Hpf]; intros w Hw; apply Hw).
      unfold DistTrainModel.collective. replace (forallb is_has_data ws1) with false by (destruct ws1 as [|w ws']; [congruence|]; inversion G0 as [|? ? Hw _]; subst; cbn [forallb]; unfold is_has_data; rewrite Hw; reflexivity).
      replace (forallb is_grad ws1) with true; [reflexivity|]. symmetry. apply forallb_forall. intros w Hin. rewrite Forall_forall in G0. unfold is_grad. rewrite (G0 w Hin). reflexivity.
  - destruct (Hend ws1 Hne1) as (n & c' & H1 & H2); [|exact Hg|].
    + unfold ws1. apply Forall_map. eapply Forall_impl; [|exact Hpf]. intros w (_ & Hs & _ & Hp). auto.
    + destruct Hl1 as (m & Hm). destruct (lrun_trans _ _ _ Hm _ _ H1) as (k & Hk). eapply good_fire; [apply map_ne; exact Hne|exact Hc|exact Hk|exact H2].
Qed.
(** The whole epoch: [n] steps, after which some process has no batch. *)
Fixpoint sync_steps (n r : nat) (z : bool) (c : nat) (ws : list worker) : list worker :=
  match n with
  | O => ws
  | S n => sync_steps n (S r) (perform r z c) ((if z then 0 else c) + 1) (sync_step r z c ws)
  end.
Lemma sync_todo : forall r z c ws, map w_todo (sync_step r z c ws) = map (fun w => tl (w_todo w)) ws.
Proof.
  intros r z c ws. unfold sync_step, all_at. destruct (param_sync r); rewrite ?map_map; (destruct (grad_sync _); rewrite ?map_map; apply map_ext; intros w; unfold first_backward; cbn; destruct (w_todo w) eqn:E; cbn; rewrite ?E; reflexivity).
Qed.
Lemma fewest_le : forall l x, In x l -> fewest l <= x.
Proof.
  intros l x. unfold fewest. generalize (hd 0 l). intros d. induction l as [|y l IH]; intros H; [destruct H|]. cbn [fold_right]. destruct H as [-> |H]; [lia|]. specialize (IH H). lia.
Qed.
Lemma fewest_in : forall l, l <> [] -> In (fewest l) l.
Proof.
  intros [|x l] H; [congruence|]. unfold fewest. cbn [hd fold_right].
  assert (Gm : forall d l, fold_right Nat.min d l = d \/ In (fold_right Nat.min d l) l).
  { intros d l'. induction l' as [|y l' IH]; [left; reflexivity|]. cbn [fold_right]. destruct (Nat.min_spec y (fold_right Nat.min d l')) as [[_ ->]|[_ ->]]; [right; left; reflexivity|]. destruct IH as [->|IH]; [left; reflexivity|right; right; exact IH]. }
  destruct (Gm x l) as [E|E]; [left; lia|]. destruct (Nat.min_spec x (fold_right Nat.min x l)) as [[_ ->]|[_ ->]]; [left; reflexivity|right; exact E].
Qed.
Lemma epoch_good : forall n r z c ws, uniform r z c ws -> fewest (map (fun w => length (w_todo w)) ws) = n -> 0 < r + n -> F (eval_done (map fetch (sync_steps n r z c ws))) -> good (map fetch ws).
Proof.
  induction n as [|n IH]; intros r z c ws Hu Hn Hpos HF.
  - cbn [sync_steps] in HF. pose proof (proj1 Hu) as Hr. pose proof (proj2 Hr) as Hne.
    assert (E : forallb (fun w : worker => match w_todo w with [] => false | _ => true end) ws = false).
    { apply not_true_is_false. intros E. rewrite forallb_forall in E. pose proof (fewest_in (map (fun w => length (w_todo w)) ws)) as H. rewrite Hn in H. specialize (H ltac:(apply map_ne; exact Hne)).
      apply in_map_iff in H. destruct H as (w & Hw & Hin). specialize (E w Hin). destruct (w_todo w); [discriminate E|discriminate Hw]. }
    pose proof (collective_has_data ws Hne) as Hc. rewrite E in Hc.
    replace (map (after_has_data cfg false) (map fetch ws)) with (all_at (map fetch ws) (fun _ => EvalNext (c_eval cfg))) in Hc.
    2:{ unfold all_at. apply map_ext_in. intros x Hx. apply in_map_iff in Hx. destruct Hx as (w & <- & Hin). destruct Hu as (_ & Hu). rewrite Forall_forall in Hu. destruct (Hu w Hin) as (_ & Hs & _).
        unfold after_has_data. cbn [fetch w_step]. rewrite Hs. destruct r; [cbn in Hpos; lia|reflexivity]. }
    destruct (good_eval (c_eval cfg) (map fetch ws)) as (m & c' & H1 & H2); [apply ranked_map; [reflexivity|exact Hr]|exact Heval|exact HF|].
    eapply good_fire; [apply map_ne; exact Hne|exact Hc|exact H1|exact H2].
  - assert (Ht : Forall (fun w : worker => w_todo w <> []) ws).
    { apply Forall_forall. intros w Hin Hw. pose proof (fewest_le (map (fun w => length (w_todo w)) ws) (length (w_todo w)) (in_map (fun w => length (w_todo w)) ws w Hin)) as H. rewrite Hn, Hw in H. cbn in H. lia. }
    eapply step_good; [exact Hu|exact Ht|]. eapply IH; [apply sync_uniform; assumption| |lia|exact HF].
    rewrite <- (map_map w_todo (@length B)), sync_todo, map_map.
    assert (Hl : forall w, In w ws -> length (w_todo w) = S (length (tl (w_todo w)))) by (intros w Hin; rewrite Forall_forall in Ht; specialize (Ht w Hin); destruct (w_todo w); [congruence|reflexivity]).
    assert (Hm : map (fun w => length (w_todo w)) ws = map S (map (fun w => length (tl (w_todo w))) ws)) by (rewrite map_map; apply map_ext_in; exact Hl).
    rewrite Hm in Hn. assert (Hfs : forall l, l <> [] -> fewest (map S l) = S (fewest l)).
    { intros [|x l] Hl'; [congruence|]. unfold fewest. cbn [map hd fold_right]. assert (Gf : forall d l, fold_right Nat.min (S d) (map S l) = S (fold_right Nat.min d l)) by (intros d l'; induction l' as [|y l' IHl]; [reflexivity|]; cbn [map fold_right]; rewrite IHl; lia). rewrite Gf. lia. }
    rewrite Hfs in Hn by (apply map_ne; apply Hu). injection Hn as Hn. exact Hn.
Qed.
Lemma start_uniform : forall xs : list (list B * (P * G)), xs <> [] -> uniform 0 true 0 (start_epoch xs).
Proof.
  intros xs Hne. unfold start_epoch. split; [split|].
  - generalize 0 as a. induction xs as [|x xs IH]; intros a; [reflexivity|]. cbn [start_from map length seq]. f_equal. destruct xs as [|y xs]; [reflexivity|]. apply IH. discriminate.
  - destruct xs; [congruence|discriminate].
  - clear Hne. cut (forall a, Forall (fun w => w_pc w = Fetch /\ w_step w = 0 /\ w_zero w = true /\ w_count w = 0) (start_from a xs)); [intros H; apply H|].
    induction xs as [|x xs IH]; intros a; [constructor|]. cbn [start_from]. constructor; [cbn; auto|apply IH].
Qed.
Theorem start_inv : forall xs : list (list B * (P * G)), xs <> [] -> 0 < fewest (map (fun x => length (fst x)) xs) -> F (eval_done (map fetch (sync_steps (fewest (map (fun x => length (fst x)) xs)) 0 true 0 (start_epoch xs)))) -> inv (start_epoch xs).
Proof.
  intros xs Hne Hpos HF. pose proof (start_uniform xs Hne) as Hu. destruct (lrun_map _ (fun w => w) fetch (start_epoch xs)) as (n & Hn).
  { intros w Hin. exists 1. apply lsteps_one. destruct Hu as (_ & Hu). rewrite Forall_forall in Hu. destruct (Hu w Hin) as (Hp & _). unfold DistTrainModel.local_step. rewrite Hp. reflexivity. }
  rewrite map_id in Hn. exists n, (map fetch (start_epoch xs)). split; [exact Hn|]. eapply epoch_good; [exact Hu| |cbn; exact Hpos|exact HF].
  f_equal. unfold start_epoch. clear. generalize 0 as a. induction xs as [|x xs IH]; intros a; [reflexivity|]. cbn [start_from map]. rewrite IH. reflexivity.
Qed.
End Good.

(** ** The parameters *)
Hypothesis Hagree : agree cfg.
Definition cnt0 (z : bool) (c : nat) : nat := if z then 0 else c.
Lemma steps_uniform : forall n r z c ws, uniform r z c ws -> Forall (fun w => n <= length (w_todo w)) ws ->
  exists z' c', uniform (r + n) z' c' (sync_steps n r z c ws).
Proof.
  induction n as [|n IH]; intros r z c ws Hu Hn; [exists z, c; rewrite Nat.add_0_r; exact Hu|]. cbn [sync_steps].
  assert (Ht : Forall (fun w : worker => w_todo w <> []) ws) by (eapply Forall_impl; [|exact Hn]; intros w Hw E; cbv beta in Hw; rewrite E in Hw; cbn in Hw; lia).
  destruct (IH (S r) (perform r z c) ((if z then 0 else c) + 1) (sync_step r z c ws)) as (z' & c' & H).
  - apply sync_uniform; assumption.
  - apply Forall_forall. intros w Hin. apply (in_map w_todo) in Hin. rewrite sync_todo in Hin. apply in_map_iff in Hin. destruct Hin as (v & <- & Hv).
    rewrite Forall_forall in Hn. specialize (Hn v Hv). destruct (w_todo v); cbn in *; lia.
  - exists z', c'. replace (r + S n) with (S r + n) by lia. exact H.
Qed.

Definition grads0 (z : bool) (ws : list worker) : list G := map (fun w => if z then c_gzero cfg else w_grad w) ws.
Definition first_row (ws : list worker) : list B := flat_map (fun bs => firstn 1 bs) (map w_todo ws).
Lemma first_grads : forall z ws p, Forall (fun w => w_zero w = z /\ w_param w = p /\ w_todo w <> []) ws ->
  map w_grad (map first_backward ws) = map (fun '(g, b) => c_gadd cfg g (c_grad cfg p b)) (combine (grads0 z ws) (first_row ws)).
Proof.
  intros z ws p H. induction H as [|w ws (Hz & Hp & Ht) H IH]; [reflexivity|]. unfold grads0, first_row in *. cbn [map flat_map].
  unfold first_backward at 1. destruct (w_todo w) as [|b bs] eqn:E; [congruence|]. change (firstn 1 (b :: bs)) with [b]. cbn [app combine map]. rewrite <- IH. f_equal. unfold backward. cbn [w_grad fetch w_zero w_param]. rewrite Hz, Hp. reflexivity.
Qed.
Lemma combine_rows : forall z ws, Forall (fun w => w_todo w <> []) ws -> length (first_row ws) = length ws /\ length (grads0 z ws) = length ws.
Proof.
  intros z ws H. split; [|apply map_length]. unfold first_row. induction H as [|w ws Hw H IH]; [reflexivity|]. cbn [map flat_map length]. rewrite app_length, IH. destruct (w_todo w); [congruence|]. reflexivity.
Qed.
Section Averaged.
Hypothesis Hred : c_reduce cfg = RGrad.
Hypothesis Hupd : forall i j r p g, c_update cfg i r p g = c_update cfg j r p g.
Hypothesis Heager : c_eager cfg = false \/ linear_mean cfg.
Lemma single_avg : forall rws p gs hs c r, length gs = length hs -> 0 < length gs -> Forall (fun row => length row = length gs) rws -> (c_eager cfg = true -> c_gavg cfg gs = c_gavg cfg hs) ->
  (c_eager cfg = false -> gs = hs) -> single cfg p gs c r rws = single cfg p hs c r rws.
Proof.
  intros rws p gs hs c r Hl Hpos Hrows He Hn. destruct Heager as [E|(Hadd & Havg)]; [rewrite (Hn E); reflexivity|].
  destruct (c_eager cfg) eqn:Ee; [|rewrite Hn by reflexivity; reflexivity]. specialize (He eq_refl). clear Hn.
  revert p gs hs c r Hl Hpos Hrows He. induction rws as [|row rws IH]; intros p gs hs c r Hl Hpos Hrows He; [reflexivity|]. inversion Hrows as [|? ? Hrow Hrows']; subst. cbn [single].
  assert (Hc : forall (l : list G) p, length l = length row -> map (fun '(g, b) => c_gadd cfg g (c_grad cfg p b)) (combine l row) = map (fun '(g, h) => c_gadd cfg g h) (combine l (map (c_grad cfg p) row))).
  { clear. intros l p. revert row. induction l as [|g l IH]; intros [|b row] H; try discriminate H; [reflexivity|]. cbn [combine map]. f_equal. apply IH. injection H as H. exact H. }
  assert (Hlen : forall (l : list G), length l = length row -> length (map (fun '(g, b) => c_gadd cfg g (c_grad cfg p b)) (combine l row)) = length row) by (intros l H; rewrite map_length, combine_length; lia).
  assert (Ha : c_gavg cfg (map (fun '(g, b) => c_gadd cfg g (c_grad cfg p b)) (combine gs row)) = c_gavg cfg (map (fun '(g, b) => c_gadd cfg g (c_grad cfg p b)) (combine hs row))).
  { rewrite !Hc by lia. rewrite !Hadd by (rewrite map_length; lia). rewrite He. reflexivity. }
  destruct (c_accum cfg 0 r <=? c + 1).
  - rewrite Ha. f_equal. assert (Hz : forall l : list G, map (fun _ => c_gzero cfg) l = repeat (c_gzero cfg) (length l)) by (intros l; induction l as [|x l IHl]; [reflexivity|]; cbn; rewrite IHl; reflexivity).
    rewrite !Hz, !Hlen by lia. reflexivity.
  - apply IH; [rewrite !Hlen by lia; reflexivity|rewrite Hlen by lia; lia| |exact Ha]. rewrite Hlen by lia. eapply Forall_impl; [|exact Hrows']. intros row' H. cbv beta in H. lia.
Qed.
Lemma rows_lengths : forall n (data : list (list B)), Forall (fun bs => n <= length bs) data -> Forall (fun row => length row = length data) (rows n data).
Proof.
  induction n as [|n IH]; intros data H; [constructor|]. cbn [rows]. constructor.
  - clear IH. induction H as [|bs data Hb H IHd]; [reflexivity|]. cbn [flat_map length]. rewrite app_length, IHd. destruct bs; [cbn in Hb; lia|]. reflexivity.
  - rewrite <- (map_length (@tl B) data). apply IH. apply Forall_map. eapply Forall_impl; [|exact H]. intros bs Hb. cbv beta in *. destruct bs; cbn in *; lia.
Qed.
Theorem averaged : forall n r z c ws p, uniform r z c ws -> Forall (fun w => n <= length (w_todo w)) ws -> Forall (fun w => w_param w = p) ws ->
  Forall (fun w => w_param w = single cfg p (grads0 z ws) (cnt0 z c) r (rows n (map w_todo ws))) (sync_steps n r z c ws).
Proof.
  induction n as [|n IH]; intros r z c ws p Hu Hn Hp; [cbn [sync_steps rows single]; exact Hp|]. cbn [sync_steps rows].
  assert (Ht : Forall (fun w : worker => w_todo w <> []) ws) by (eapply Forall_impl; [|exact Hn]; intros w Hw E; cbv beta in Hw; rewrite E in Hw; cbn in Hw; lia).
  pose proof (sync_uniform Hagree r z c ws Hu Ht) as Hu'.
  assert (Hn' : Forall (fun w => n <= length (w_todo w)) (sync_step r z c ws)).
  { apply Forall_forall. intros w Hin. apply (in_map w_todo) in Hin. rewrite sync_todo in Hin. apply in_map_iff in Hin. destruct Hin as (v & <- & Hv).
    rewrite Forall_forall in Hn. specialize (Hn v Hv). destruct (w_todo v); cbn in *; lia. }
  assert (Hall : Forall (fun w => w_zero w = z /\ w_param w = p /\ w_todo w <> []) ws).
  { destruct Hu as (_ & Hu). rewrite Forall_forall in *. intros w Hin. destruct (Hu w Hin) as (_ & _ & Hz & _). auto. }
  pose proof (first_grads z ws p Hall) as Hg. fold (first_row ws). cbn [single].
  set (gs' := map (fun '(g, b) => c_gadd cfg g (c_grad cfg p b)) (combine (grads0 z ws) (first_row ws))) in *.
  assert (Hlen : length gs' = length ws) by (unfold gs'; rewrite map_length, combine_length; destruct (combine_rows z ws Ht); lia).
  assert (Hpos : 0 < length ws) by (destruct Hu as ((_ & Hne) & _); destruct ws; [congruence|cbn; lia]).
  fold (cnt0 z c) in *. unfold perform in Hu' at 1. fold (cnt0 z c) in Hu'.
  (* the parameters and gradients after the step *)
  assert (Hps : Forall (fun w => w_param w = if perform r z c then c_update cfg 0 r p (c_gavg cfg gs') else p) (sync_step r z c ws) /\
    (perform r z c = false -> map w_grad (sync_step r z c ws) = if c_eager cfg then repeat (c_gavg cfg gs') (length ws) else gs')).
  { unfold sync_step, param_sync, grad_sync. rewrite Hred. rewrite Hg.
    assert (Hfb : Forall (fun w => w_param (first_backward w) = p /\ w_step (first_backward w) = r /\ w_zero (first_backward w) = perform r z c) ws).
    { destruct Hu as (_ & Hu). rewrite Forall_forall in *. intros w Hin. destruct (Hu w Hin) as (_ & <- & <- & <-). destruct (Hall w Hin) as (_ & <- & Hw). unfold first_backward. destruct (w_todo w); [congruence|].
      unfold backward. cbn [w_param fetch w_step w_zero w_rank w_count]. rewrite (Hagree (w_rank w) 0). auto. }
    destruct (perform r z c) eqn:Ep; cbn [orb].
    - split; [|discriminate]. rewrite !map_map. apply Forall_map. eapply Forall_impl; [|exact Hfb]. intros w (E1 & E2 & E3). cbn [next_step update after_grad w_param w_zero w_rank w_step w_grad]. rewrite E1, E2, E3. apply Hupd.
    - destruct (c_eager cfg).
      + split.
        * rewrite !map_map. apply Forall_map. eapply Forall_impl; [|exact Hfb]. intros w (E1 & E2 & E3). cbn [next_step update after_grad w_param w_zero w_rank w_step w_grad]. rewrite E1, E3. reflexivity.
        * intros _. rewrite !map_map. cbn [next_step update after_grad w_grad]. generalize (c_gavg cfg gs') as a. clear. intros a. induction ws as [|w ws IHw]; [reflexivity|]. cbn [map length repeat]. rewrite IHw. reflexivity.
      + split.
        * rewrite !map_map. apply Forall_map. eapply Forall_impl; [|exact Hfb]. intros w (E1 & E2 & E3). cbn [next_step update after_grad w_param w_zero w_rank w_step w_grad]. rewrite E1, E3. reflexivity.
        * intros _. rewrite <- Hg. rewrite !map_map. reflexivity. }
  destruct Hps as (Hps & Hgs). specialize (IH _ _ _ _ _ Hu' Hn' Hps). fold (perform r z c) in IH.
  eapply Forall_impl; [|exact IH]. intros w Hw. cbv beta in Hw. rewrite Hw. clear Hw IH. rewrite sync_todo, <- (map_map w_todo (@tl B)).
  assert (Hrl : Forall (fun row => length row = length ws) (rows n (map (@tl B) (map w_todo ws)))).
  { rewrite <- (map_length w_todo ws), <- (map_length (@tl B) (map w_todo ws)). apply rows_lengths. rewrite map_map. apply Forall_map. eapply Forall_impl; [|exact Hn]. intros v Hv. cbv beta in Hv. destruct (w_todo v); cbn in *; lia. }
  assert (Hsl : length (sync_step r z c ws) = length ws) by (rewrite <- (map_length w_todo), sync_todo, map_length; reflexivity).
  unfold perform in *. fold (cnt0 z c) in *. destruct (c_accum cfg 0 r <=? cnt0 z c + 1).
  - f_equal. unfold grads0. assert (Hz : forall A (l : list A), map (fun _ => c_gzero cfg) l = repeat (c_gzero cfg) (length l)) by (intros A l; induction l as [|x l IHl]; [reflexivity|]; cbn; rewrite IHl; reflexivity).
    rewrite !Hz, Hsl, Hlen. reflexivity.
  - specialize (Hgs eq_refl). change (grads0 false (sync_step r z c ws)) with (map w_grad (sync_step r z c ws)). rewrite Hgs. cbn [cnt0]. apply single_avg.
    + destruct (c_eager cfg); [rewrite repeat_length|]; lia.
    + destruct (c_eager cfg); [rewrite repeat_length|]; lia.
    + destruct (c_eager cfg); [rewrite repeat_length|rewrite Hlen]; exact Hrl.
    + intros E. rewrite E. destruct Heager as [E'|(_ & Havg)]; [congruence|]. apply Havg. exact Hpos.
    + intros E. rewrite E. reflexivity.
Qed.
End Averaged.

Section Local.
Variable m : nat.
Hypothesis Hm : 0 < m.
Hypothesis Hred : c_reduce cfg = RParam m.
Definition entry (z : bool) (w : worker) : nat * (P * G) := (w_rank w, (w_param w, if z then c_gzero cfg else w_grad w)).
Lemma mod_last : forall r, (S r mod m =? 0) = (r mod m =? m - 1).
Proof.
  intros r. pose proof (Nat.div_mod r m ltac:(lia)) as H. pose proof (Nat.mod_upper_bound r m ltac:(lia)) as Hb.
  destruct (Nat.eqb_spec (r mod m) (m - 1)) as [E|E].
  - apply Nat.eqb_eq. replace (S r) with (0 + (r / m + 1) * m) by nia. rewrite Nat.mod_add by lia. apply Nat.mod_0_l. lia.
  - apply Nat.eqb_neq. replace (S r) with (S (r mod m) + (r / m) * m) by nia. rewrite Nat.mod_add by lia. rewrite Nat.mod_small by lia. lia.
Qed.
Theorem averaged_params : forall n r z c ws, uniform r z c ws -> Forall (fun w => n <= length (w_todo w)) ws ->
  map w_param (sync_steps n r z c ws) = local_sgd cfg m (map (entry z) ws) (cnt0 z c) r (rows n (map w_todo ws)).
Proof.
  induction n as [|n IH]; intros r z c ws Hu Hn; [cbn [sync_steps rows local_sgd]; rewrite map_map; reflexivity|]. cbn [sync_steps rows].
  assert (Ht : Forall (fun w : worker => w_todo w <> []) ws) by (eapply Forall_impl; [|exact Hn]; intros w Hw E; cbv beta in Hw; rewrite E in Hw; cbn in Hw; lia).
  pose proof (sync_uniform Hagree r z c ws Hu Ht) as Hu'.
  assert (Hn' : Forall (fun w => n <= length (w_todo w)) (sync_step r z c ws)).
  { apply Forall_forall. intros w Hin. apply (in_map w_todo) in Hin. rewrite sync_todo in Hin. apply in_map_iff in Hin. destruct Hin as (v & <- & Hv).
    rewrite Forall_forall in Hn. specialize (Hn v Hv). destruct (w_todo v); cbn in *; lia. }
  rewrite (IH _ _ _ _ Hu' Hn'). rewrite sync_todo, <- (map_map w_todo (@tl B)). cbn [local_sgd]. fold (first_row ws). rewrite mod_last.
  assert (H1 : map (fun '((i, (p, g)), b) => (i, (p, c_gadd cfg g (c_grad cfg p b)))) (combine (map (entry z) ws) (first_row ws))
             = map (fun w => (w_rank w, (w_param w, w_grad w))) (map first_backward ws)).
  { destruct Hu as (_ & Hu). clear -Hu Ht. unfold first_row. induction ws as [|w ws IHw]; [reflexivity|]. inversion Hu as [|? ? Hw Hu']; subst. inversion Ht as [|? ? Hwt Ht']; subst.
    cbn [map flat_map]. destruct (w_todo w) as [|b bs] eqn:Ew; [congruence|]. assert (Efb : first_backward w = backward cfg (fetch w) b) by (unfold first_backward; rewrite Ew; reflexivity). rewrite Efb. change (firstn 1 (b :: bs)) with [b]. cbn [app combine map]. rewrite <- (IHw Hu' Ht'). f_equal.
    unfold entry, backward. cbn [w_rank w_param w_grad fetch w_zero]. destruct Hw as (_ & _ & Hz & _). rewrite ?Hz. reflexivity. }
  rewrite H1. clear H1. fold (perform r z c). change ((if z then 0 else c) + 1) with (cnt0 z c + 1). change (c_accum cfg 0 r <=? cnt0 z c + 1) with (perform r z c).
  assert (Hfb : Forall (fun w => w_step (first_backward w) = r /\ w_zero (first_backward w) = perform r z c) ws).
  { destruct Hu as (_ & Hu). rewrite Forall_forall in *. intros w Hin. destruct (Hu w Hin) as (_ & <- & <- & <-). specialize (Ht w Hin). unfold first_backward. destruct (w_todo w); [congruence|].
    unfold backward. cbn [w_param fetch w_step w_zero w_rank w_count]. rewrite (Hagree (w_rank w) 0). auto. }
  assert (H2 : (if perform r z c then map (fun '(i, (p, g)) => (i, (c_update cfg i r p g, c_gzero cfg))) (map (fun w => (w_rank w, (w_param w, w_grad w))) (map first_backward ws))
      else map (fun w => (w_rank w, (w_param w, w_grad w))) (map first_backward ws)) = map (entry (perform r z c)) (map (update cfg) (map first_backward ws))).
  { rewrite !map_map. destruct (perform r z c) eqn:Ep; apply map_ext_in; intros w Hin; rewrite Forall_forall in Hfb; destruct (Hfb w Hin) as (E1 & E2);
      unfold entry; cbn [update w_rank w_param w_grad]; rewrite E2, ?E1; reflexivity. }
  rewrite H2. clear H2. f_equal.
  - unfold sync_step, param_sync, grad_sync. rewrite Hred. destruct (r mod m =? m - 1).
    + unfold all_at. rewrite !map_map. apply map_ext. intros w. reflexivity.
    + rewrite !map_map. reflexivity.
Qed.
End Local.

(** ** The whole epoch *)
Definition result (xs : list (list B * (P * G))) : list worker := eval_done (map fetch (sync_steps (batches xs) 0 true 0 (start_epoch xs))).
Section Epoch.
Hypothesis Heval : Forall (fun n => 0 < n) (c_eval cfg).
Variable xs : list (list B * (P * G)).
Hypothesis Hne : xs <> [].
Hypothesis Hpos : 0 < batches xs.
Lemma epoch_inv : inv (fun s => s = result xs) (start_epoch xs).
Proof. apply (start_inv (fun s => s = result xs) Hagree Heval xs Hne Hpos). reflexivity. Qed.
Theorem epoch_progress : forall s, steps (start_epoch xs) s -> Forall finished s \/ exists s', step s s'.
Proof. intros s H. apply (inv_progress (fun s => s = result xs)). eapply inv_steps; [exact H|exact epoch_inv]. Qed.
Theorem epoch_result : forall s, steps (start_epoch xs) s -> Forall finished s -> s = result xs.
Proof. intros s H. apply (inv_final (fun s => s = result xs)). eapply inv_steps; [exact H|exact epoch_inv]. Qed.
Theorem epoch_terminates : Acc (fun b a => step a b) (start_epoch xs).
Proof. destruct epoch_inv as (n & c & H1 & H2). eapply good_acc; eassumption. Qed.
Lemma start_todo : map w_todo (start_epoch xs) = map fst xs.
Proof. unfold start_epoch. generalize 0 as a. clear. induction xs as [|x l IH]; intros a; [reflexivity|]. cbn [start_from map]. rewrite IH. reflexivity. Qed.
Lemma start_todo_len : Forall (fun w => batches xs <= length (w_todo w)) (start_epoch xs).
Proof.
  apply Forall_forall. intros w Hin. apply (in_map w_todo) in Hin. rewrite start_todo in Hin. apply in_map_iff in Hin. destruct Hin as (x & <- & Hx).
  apply fewest_le. apply (in_map (fun x => length (fst x)) xs x Hx).
Qed.
Lemma start_grads : grads0 true (start_epoch xs) = map (fun _ => c_gzero cfg) xs.
Proof. unfold start_epoch, grads0. generalize 0 as a. clear. induction xs as [|x l IH]; intros a; [reflexivity|]. cbn [start_from map]. rewrite IH. reflexivity. Qed.
Lemma start_entries : map (entry true) (start_epoch xs) = number cfg 0 (map (fun x => fst (snd x)) xs).
Proof. unfold start_epoch. generalize 0 as a. clear. induction xs as [|x l IH]; intros a; [reflexivity|]. cbn [start_from map number]. rewrite IH. reflexivity. Qed.
Lemma result_length : length (result xs) = length xs.
Proof.
  unfold result, eval_done, all_at. rewrite !map_length. transitivity (length (start_epoch xs)).
  - cut (forall n r z c l, length (sync_steps n r z c l) = length l); [intros H; apply H|]. clear. intros n. induction n as [|n IH]; intros r z c l; [reflexivity|]. cbn [sync_steps]. rewrite IH.
    rewrite <- (map_length w_todo), sync_todo, map_length. reflexivity.
  - rewrite <- (map_length w_todo), start_todo, map_length. reflexivity.
Qed.
Theorem result_steps : Forall (fun w => w_step w = batches xs) (result xs).
Proof.
  destruct (steps_uniform (batches xs) 0 true 0 (start_epoch xs) (start_uniform xs Hne) start_todo_len) as (z & c & _ & H).
  unfold result, eval_done, all_at. rewrite map_map. apply Forall_map. eapply Forall_impl; [|exact H]. intros w (_ & Hw & _). exact Hw.
Qed.
Lemma result_params : map w_param (result xs) = map w_param (sync_steps (batches xs) 0 true 0 (start_epoch xs)).
Proof. unfold result, eval_done, all_at. rewrite !map_map. reflexivity. Qed.
End Epoch.

(** A process without any batch. *)
Section Empty.
Variable xs : list (list B * (P * G)).
Hypothesis Hne : xs <> [].
Hypothesis Hzero : batches xs = 0.
Definition early (s : list worker) : Prop := Forall2 (fun w x => w = x \/ w = fetch x) s (start_epoch xs).
Definition gone : list worker := map (fun w => at_pc (fetch w) Failed) (start_epoch xs).
Lemma early_collective : forall s s', early s -> collective s = Some s' -> s' = gone.
Proof.
  intros s s' He Hc. pose proof (start_uniform xs Hne) as ((_ & Hsne) & Hu).
  assert (Hs : s = map fetch (start_epoch xs)).
  { pose proof (collective_blocked _ _ Hc) as Hb. clear Hc. unfold early in He. induction He as [|w x ws l Hwx He IH]; [reflexivity|]. inversion Hb as [|? ? Hbw Hb']; subst. inversion Hu as [|? ? Hx Hu']; subst.
    cbn [map]. assert (Hl : l = [] \/ l <> []) by (destruct l; [auto|right; discriminate]). f_equal.
    - destruct Hwx as [-> | ->]; [|reflexivity]. exfalso. unfold blocked, DistTrainModel.local_step in Hbw. destruct Hx as (Hx & _). rewrite Hx in Hbw. discriminate Hbw.
    - destruct Hl as [-> |Hl]; [inversion He; reflexivity|]. apply IH; assumption. }
  subst s. rewrite (collective_has_data _ Hsne) in Hc. injection Hc as <-.
  assert (E : forallb (fun w : worker => match w_todo w with [] => false | _ => true end) (start_epoch xs) = false).
  { apply not_true_is_false. intros E. rewrite forallb_forall in E. pose proof (fewest_in (map (fun x => length (fst x)) xs) ltac:(apply map_ne; exact Hne)) as H. fold (batches xs) in H. rewrite Hzero in H.
    apply in_map_iff in H. destruct H as (x & Hx & Hin). apply (in_map fst) in Hin. rewrite <- start_todo in Hin. apply in_map_iff in Hin. destruct Hin as (w & Hw & Hin). specialize (E w Hin). rewrite Hw in E. destruct (fst x); [discriminate E|discriminate Hx]. }
  rewrite E. unfold gone. rewrite map_map. apply map_ext_in. intros w Hin. rewrite Forall_forall in Hu. destruct (Hu w Hin) as (_ & Hs & _). unfold after_has_data. cbn [fetch w_step]. rewrite Hs. reflexivity.
Qed.
Lemma early_local : forall l w w' r, early (l ++ w :: r) -> local_step w = Some w' -> early (l ++ w' :: r).
Proof.
  intros l w w' r He Hw. pose proof (start_uniform xs Hne) as (_ & Hu). unfold early in *. revert He Hu. generalize (start_epoch xs). induction l as [|a l IH]; intros [|x st] He Hu; inversion He; subst; inversion Hu as [|? ? Hx Hu']; subst.
  - constructor; [|assumption]. destruct H2 as [-> | ->]; unfold DistTrainModel.local_step in Hw.
    + destruct Hx as (Hx & _). rewrite Hx in Hw. injection Hw as <-. right. reflexivity.
    + cbn in Hw. discriminate Hw.
  - cbn [app]. constructor; [assumption|]. apply IH; assumption.
Qed.
Lemma gone_blocked : forall s', ~ step gone s'.
Proof.
  intros s' H. inversion H as [l w w' r Hw E|ws ws' Hc]; subst.
  - assert (Hin : In w gone) by (rewrite <- E; apply in_elt). apply in_map_iff in Hin. destruct Hin as (v & <- & _). discriminate Hw.
  - unfold gone in Hc. pose proof (start_uniform xs Hne) as ((_ & Hsne) & _). destruct (start_epoch xs); [congruence|]. cbn in Hc. discriminate Hc.
Qed.
Theorem empty_steps : forall s, steps (start_epoch xs) s -> early s \/ s = gone.
Proof.
  intros s H. assert (He : early (start_epoch xs) \/ start_epoch xs = gone) by (left; unfold early; generalize (start_epoch xs); intros l; induction l; constructor; auto).
  assert (Hi : forall a b, steps a b -> early a \/ a = gone -> early b \/ b = gone); [|exact (Hi _ _ H He)].
  intros a b Hab. induction Hab as [|a b c H1 H2 IH]; intros Ha; [exact Ha|]. apply IH. destruct Ha as [Ha| ->]; [|destruct (gone_blocked _ H1)].
  destruct H1 as [l w w' r Hw|ws ws' Hc]; [left; eapply early_local; eassumption|right; eapply early_collective; eassumption].
Qed.
Theorem empty_never_finished : forall s, steps (start_epoch xs) s -> Forall (fun w => ~ finished w) s.
Proof.
  intros s H. destruct (empty_steps _ H) as [He| ->].
  - pose proof (start_uniform xs Hne) as (_ & Hu). unfold early in He. revert He Hu. generalize (start_epoch xs). intros l He Hu. clear H. induction He as [|w x ws l Hwx He IH]; [constructor|]. inversion Hu as [|? ? Hx Hu']; subst. constructor; [|apply IH; exact Hu'].
    unfold finished. destruct Hwx as [-> | ->]; [destruct Hx as (-> & _); discriminate|cbn; discriminate].
  - apply Forall_map, Forall_forall. intros w _ E. discriminate E.
Qed.
Theorem empty_failed : forall s, steps (start_epoch xs) s -> (forall s', ~ step s s') -> Forall (fun w => w_pc w = Failed) s.
Proof.
  intros s H Hstuck. destruct (empty_steps _ H) as [He| ->]; [|apply Forall_map, Forall_forall; intros w _; reflexivity]. exfalso.
  pose proof (start_uniform xs Hne) as ((_ & Hsne) & Hu).
  assert (Hs : s = map fetch (start_epoch xs)).
  { assert (Hb : Forall blocked s).
    { apply Forall_forall. intros w Hin. apply in_split in Hin. destruct Hin as (l & r & ->). unfold blocked. destruct (local_step w) as [w'|] eqn:E; [|reflexivity]. destruct (Hstuck _ (step_local _ l w w' r E)). }
    clear Hstuck H Hsne. unfold early in He. induction He as [|w x ws l Hwx He IH]; [reflexivity|]. inversion Hb as [|? ? Hbw Hb']; subst. inversion Hu as [|? ? Hx Hu']; subst.
    cbn [map]. f_equal; [|apply IH; assumption].
    destruct Hwx as [-> | ->]; [|reflexivity]. exfalso. unfold blocked, DistTrainModel.local_step in Hbw. destruct Hx as (Hx & _). rewrite Hx in Hbw. discriminate Hbw. }
  eapply Hstuck. apply step_collective. rewrite Hs. apply collective_has_data. exact Hsne.
Qed.
End Empty.

(** ** Averaged parameters are equal after the averaging *)
Lemma local_last : forall n rws st c r, rws <> [] -> (r + length rws) mod n = 0 -> exists p, Forall (eq p) (local_sgd cfg n st c r rws).
Proof.
  intros n. induction rws as [|row rws IH]; intros st c r Hne' H; [congruence|]. destruct rws as [|row' rws].
  - cbn [length] in H. cbn [local_sgd]. replace (S r mod n =? 0) with true by (symmetry; apply Nat.eqb_eq; rewrite <- H; f_equal; lia).
    eexists. rewrite map_map. apply Forall_map, Forall_forall. intros (i & p & g) _. cbn [fst snd]. reflexivity.
  - cbn [local_sgd] in *. apply IH; [discriminate|]. rewrite <- H. f_equal. cbn [length]. lia.
Qed.
Lemma rows_length : forall n (data : list (list B)), length (rows n data) = n.
Proof. induction n as [|n IH]; intros data; [reflexivity|]. cbn [rows length]. rewrite IH. reflexivity. Qed.
Lemma acc_no_run : forall s, Acc (fun b a => step a b) s -> no_endless_run cfg s.
Proof.
  intros s H. induction H as [s _ IH]. intros (f & H0 & Hf). apply (IH (f 1)); [rewrite <- H0; apply Hf|]. exists (fun i => f (S i)). split; [reflexivity|]. intros i. apply Hf.
Qed.
Lemma stuck_intro : forall s, forallb (fun w => match local_step w with None => true | _ => false end) s = true -> collective s = None -> stuck cfg s.
Proof.
  intros s Hb Hc s' H. inversion H as [l w w' r Hw E|ws ws' Hc' E]; subst; [|congruence].
  rewrite forallb_forall in Hb. specialize (Hb w (in_elt w l r)). rewrite Hw in Hb. discriminate Hb.
Qed.
(** A given schedule: [Some i] is a step of process [i], [None] a collective operation. *)
Definition sched1 (k : option nat) (ws : list worker) : option (list worker) :=
  match k with
  | None => collective ws
  | Some i => match nth_error ws i with
              | Some w => match local_step w with Some w' => Some (firstn i ws ++ w' :: skipn (S i) ws) | None => None end
              | None => None
              end
  end.
Fixpoint sched (ks : list (option nat)) (ws : list worker) : option (list worker) :=
  match ks with [] => Some ws | k :: ks => match sched1 k ws with Some ws' => sched ks ws' | None => None end end.
Lemma skipn_nth : forall A (l : list A) i x, nth_error l i = Some x -> skipn i l = x :: skipn (S i) l.
Proof. intros A l. induction l as [|y l IH]; intros [|i] x H; try discriminate H; [injection H as ->; reflexivity|]. cbn [skipn] in *. rewrite (IH i x H). reflexivity. Qed.
Lemma sched_steps : forall ks ws ws', sched ks ws = Some ws' -> steps ws ws'.
Proof.
  induction ks as [|k ks IH]; intros ws ws' H; cbn [sched] in H; [injection H as ->; constructor|]. destruct (sched1 k ws) as [ws1|] eqn:E; [|discriminate H].
  eapply steps_cons; [|apply IH; exact H]. destruct k as [i|]; cbn [sched1] in E; [|constructor; exact E].
  destruct (nth_error ws i) as [w|] eqn:En; [|discriminate E]. destruct (local_step w) as [w'|] eqn:Ew; [|discriminate E]. injection E as <-.
  rewrite <- (firstn_skipn i ws) at 1. rewrite (skipn_nth _ _ _ _ En). constructor. exact Ew.
Qed.
End Proofs.
