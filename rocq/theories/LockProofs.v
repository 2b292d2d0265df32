(** Proofs about the lock file. *)
From Verif Require Import Base ListLemmas LockModel LockSpec.

Section P.
  Variable timeout : Z.

  Lemma pc_set w p c q : w_pc (set_pc w p c) q = if p =? q then c else w_pc w q.
  Proof. reflexivity. Qed.

  (** who is in possession has created the file *)
  Definition inv (w : world) : Prop := forall p, in_possession w p -> exists m, w_file w = Some (p, m).

  Lemma inv_exclusive w : inv w -> exclusive w.
  Proof.
    intros H p q Hp Hq. destruct (H p (or_introl Hp)) as (m&E1). destruct (H q (or_introl Hq)) as (m'&E2). congruence.
  Qed.
  Lemma inv_start now : inv (start now).
  Proof. intros p [H|[H|H]]; discriminate. Qed.

  Lemma inv_set_pc w p c : inv w -> c <> Held -> c <> Close -> c <> Remove -> inv (set_pc w p c).
  Proof.
    intros H H1 H2 H3 q Hq. unfold in_possession in Hq. rewrite pc_set in Hq. destruct (p =? q); [intuition congruence|]. apply H. exact Hq.
  Qed.
  Lemma inv_keep w p c : inv w -> in_possession w p -> inv (set_pc w p c).
  Proof.
    intros H Hp q Hq. unfold in_possession in Hq. rewrite pc_set in Hq. cbn [set_pc w_file]. destruct (Nat.eqb_spec p q) as [Heq|_]; [subst q; now apply H|]. apply H. exact Hq.
  Qed.

  Lemma inv_exec e w : inv w -> holders_in_time timeout w -> removes_only_stale timeout w e -> inv (exec timeout e w).
  Proof.
    intros H Ht Hr. destruct e as [d|p|p|p|p]; cbn [exec].
    - exact H.
    - destruct (w_pc w p); try exact H. apply inv_set_pc; [exact H|discriminate..].
    - destruct (w_pc w p) eqn:Hp; try exact H. apply inv_keep; [exact H|now left].
    - unfold act. destruct (w_pc w p) eqn:Hp; try exact H.
      + destruct (w_file w) as [f|] eqn:Hf; [apply inv_set_pc; [exact H|discriminate..]|].
        intros q Hq. unfold in_possession in Hq. rewrite pc_set in Hq. cbn. destruct (Nat.eqb_spec p q) as [Heq|_]; [subst q; now exists (w_now w)|].
        destruct (H q Hq) as (m&E). congruence.
      + destruct (w_file w) as [[q m]|]; apply inv_set_pc; try exact H; discriminate.
      + apply inv_set_pc; [exact H|destruct (is_old _ _ _); discriminate..].
      + intros q Hq. unfold in_possession in Hq. rewrite pc_set in Hq. cbn in *. destruct (Nat.eqb_spec p q) as [Heq|_]; [intuition congruence|].
        destruct (H q Hq) as (m&E). destruct (Hr p eq_refl Hp) as [Hn|Hs]; [congruence|]. exfalso. exact (Ht q Hq Hs).
      + apply inv_set_pc; [exact H|discriminate..].
      + apply inv_keep; [exact H|right; now left].
      + destruct (w_file w) as [f|] eqn:Hf; [|apply inv_set_pc; [exact H|discriminate..]].
        destruct (H p (or_intror (or_intror Hp))) as (m&Em). intros q Hq. unfold in_possession in Hq. rewrite pc_set in Hq. cbn in Hq. exfalso.
        destruct (Nat.eqb_spec p q) as [Heq|Hne]; [intuition congruence|]. destruct (H q Hq) as (m'&E). congruence.
    - apply inv_set_pc; [exact H|discriminate..].
  Qed.

  Lemma run_app es es' w : run timeout (es ++ es') w = run timeout es' (run timeout es w).
  Proof. apply fold_left_app. Qed.
  Lemma always_snoc P es e w : always timeout P (es ++ [e]) w -> always timeout P es w /\ P (run timeout es w) e.
  Proof.
    intros H. split; [|now apply (H es e [])]. intros pre e' post Heq. apply (H pre e' (post ++ [e])). rewrite Heq, <- app_assoc. reflexivity.
  Qed.
  Lemma run_inv es now : always timeout (fun w e => holders_in_time timeout w /\ removes_only_stale timeout w e) es (start now) ->
    inv (run timeout es (start now)).
  Proof.
    induction es as [|e es IH] using rev_ind; intros H; [apply inv_start|].
    apply always_snoc in H. destruct H as [H [H1 H2]]. rewrite run_app. cbn. apply inv_exec; auto.
  Qed.

  Lemma act_other p q w : p <> q -> w_pc (act timeout p w) q = w_pc w q.
  Proof.
    intros Hne. assert (Hn : forall w c, w_pc (set_pc w p c) q = w_pc w q) by (intros w0 c; rewrite pc_set; destruct (Nat.eqb_spec p q); congruence).
    unfold act. destruct (w_pc w p); try reflexivity; try apply Hn.
    - destruct (w_file w); rewrite Hn; reflexivity.
    - destruct (w_file w) as [[? ?]|]; rewrite Hn; reflexivity.
    - rewrite Hn. reflexivity.
    - destruct (w_file w); rewrite Hn; reflexivity.
  Qed.

  (** a waiting process alone gets the lock in the end *)
  Lemma w_pc_eq w p c : w_pc (set_pc w p c) p = c.
  Proof. rewrite pc_set, Nat.eqb_refl. reflexivity. Qed.
  Definition waits (c : pc) : Prop := match c with Create | Check | Compare _ | RemoveOld | Sleep => True | _ => False end.
  Lemma to_create w p : waits (w_pc w p) -> exists es, (forall e, In e es -> e = Act p) /\
    w_pc (run timeout es w) p = Create /\ w_now (run timeout es w) = w_now w /\ (w_file (run timeout es w) = w_file w \/ w_file (run timeout es w) = None).
  Proof.
    intros H.
    assert (HS : forall w, w_pc w p = Sleep -> w_pc (act timeout p w) p = Create /\ w_now (act timeout p w) = w_now w /\ w_file (act timeout p w) = w_file w).
    { intros w0 E. unfold act. rewrite E, w_pc_eq. auto. }
    assert (HC : forall w m, w_pc w p = Compare m -> exists es, (forall e, In e es -> e = Act p) /\
      w_pc (run timeout es w) p = Create /\ w_now (run timeout es w) = w_now w /\ (w_file (run timeout es w) = w_file w \/ w_file (run timeout es w) = None)).
    { intros w0 m E. destruct (is_old timeout m (w_now w0)) eqn:Ho.
      - exists [Act p; Act p; Act p]. split; [intros e He; cbn in He; intuition|]. cbn [run fold_left exec].
        set (w1 := act timeout p w0). assert (E1 : w_pc w1 p = RemoveOld /\ w_now w1 = w_now w0) by (unfold w1, act; rewrite E, w_pc_eq, Ho; auto).
        set (w2 := act timeout p w1). assert (E2 : w_pc w2 p = Sleep /\ w_now w2 = w_now w1 /\ w_file w2 = None) by (unfold w2, act; destruct E1 as [E1 _]; rewrite E1, w_pc_eq; auto).
        destruct (HS w2 (proj1 E2)) as (A&B&C). rewrite A, B, C. intuition congruence.
      - exists [Act p; Act p]. split; [intros e He; cbn in He; intuition|]. cbn [run fold_left exec].
        set (w1 := act timeout p w0). assert (E1 : w_pc w1 p = Sleep /\ w_now w1 = w_now w0 /\ w_file w1 = w_file w0) by (unfold w1, act; rewrite E, w_pc_eq, Ho; auto).
        destruct (HS w1 (proj1 E1)) as (A&B&C). rewrite A, B, C. intuition congruence. }
    destruct (w_pc w p) eqn:E; try contradiction.
    - exists []. cbn. split; [intros e []|]. auto.
    - destruct (w_file w) as [[q m]|] eqn:Hf.
      + destruct (HC (act timeout p w) m) as (es&H1&H2&H3&H4); [unfold act; rewrite E, Hf, w_pc_eq; reflexivity|].
        exists (Act p :: es). split; [intros e [<-|He]; [reflexivity|now apply H1]|]. cbn [run fold_left exec]. fold (run timeout es (act timeout p w)).
        assert (Hx : w_now (act timeout p w) = w_now w /\ w_file (act timeout p w) = w_file w) by (unfold act; rewrite E, Hf; auto).
        destruct Hx as [Hx1 Hx2]. rewrite H2, H3, Hx1. rewrite Hx2, Hf in H4. auto.
      + exists [Act p; Act p]. split; [intros e He; cbn in He; intuition|]. cbn [run fold_left exec].
        set (w1 := act timeout p w). assert (E1 : w_pc w1 p = Sleep /\ w_now w1 = w_now w /\ w_file w1 = w_file w) by (unfold w1, act; rewrite E, Hf, w_pc_eq; auto).
        destruct (HS w1 (proj1 E1)) as (A&B&C). rewrite A, B, C. intuition congruence.
    - apply (HC w mtime E).
    - exists [Act p; Act p]. split; [intros e He; cbn in He; intuition|]. cbn [run fold_left exec].
      set (w1 := act timeout p w). assert (E1 : w_pc w1 p = Sleep /\ w_now w1 = w_now w /\ w_file w1 = None) by (unfold w1, act; rewrite E, w_pc_eq; auto).
      destruct (HS w1 (proj1 E1)) as (A&B&C). rewrite A, B, C. intuition congruence.
    - exists [Act p]. split; [intros e He; cbn in He; intuition|]. cbn [run fold_left exec]. destruct (HS w E) as (A&B&C). rewrite A, B, C. auto.
  Qed.

  Lemma recovers w p : waits (w_pc w p) -> (forall q m, w_file w = Some (q, m) -> is_old timeout m (w_now w) = true) ->
    exists es, (forall e, In e es -> e = Act p) /\ w_pc (run timeout es w) p = Held.
  Proof.
    intros H Hold. destruct (to_create w p H) as (es&H1&H2&H3&H4).
    set (w1 := run timeout es w) in *. destruct (w_file w1) as [[q m]|] eqn:Hf.
    - assert (Ho : is_old timeout m (w_now w1) = true). { rewrite H3. apply (Hold q). destruct H4; congruence. }
      exists (es ++ [Act p; Act p; Act p; Act p; Act p; Act p]). split.
      { intros e He. apply in_app_or in He. destruct He as [He|He]; [now apply H1|]. cbn in He. intuition. }
      rewrite run_app. fold w1. cbn [run fold_left exec].
      assert (S1 : act timeout p w1 = set_pc w1 p Check) by (unfold act; now rewrite H2, Hf). rewrite S1.
      assert (S2 : act timeout p (set_pc w1 p Check) = set_pc (set_pc w1 p Check) p (Compare m)) by (unfold act; rewrite w_pc_eq; cbn; now rewrite Hf). rewrite S2.
      set (w2 := set_pc (set_pc w1 p Check) p (Compare m)).
      assert (S3 : act timeout p w2 = set_pc w2 p RemoveOld) by (unfold act; unfold w2 at 1; rewrite w_pc_eq; change (w_now w2) with (w_now w1); now rewrite Ho). rewrite S3.
      assert (S4 : act timeout p (set_pc w2 p RemoveOld) = set_pc (set_file (set_pc w2 p RemoveOld) None) p Sleep) by (unfold act; now rewrite w_pc_eq). rewrite S4.
      set (w3 := set_pc (set_file (set_pc w2 p RemoveOld) None) p Sleep).
      assert (S5 : act timeout p w3 = set_pc w3 p Create) by (unfold act; unfold w3 at 1; now rewrite w_pc_eq). rewrite S5.
      unfold act. rewrite w_pc_eq. cbn. now rewrite Nat.eqb_refl.
    - exists (es ++ [Act p]). split.
      { intros e He. apply in_app_or in He. destruct He as [He|He]; [now apply H1|]. cbn in He. intuition. }
      rewrite run_app. fold w1. cbn [run fold_left exec]. unfold act. rewrite H2, Hf, w_pc_eq. reflexivity.
  Qed.

  Lemma not_failed_exec e w : inv w -> (forall p, w_pc w p <> Failed) -> forall p, w_pc (exec timeout e w) p <> Failed.
  Proof.
    intros H Hf p. destruct e as [d|q|q|q|q]; cbn [exec]; try apply Hf.
    - destruct (w_pc w q); try apply Hf. rewrite pc_set. destruct (q =? p); [discriminate|apply Hf].
    - destruct (w_pc w q); try apply Hf. rewrite pc_set. destruct (q =? p); [discriminate|apply Hf].
    - destruct (Nat.eq_dec q p) as [->|Hne]; [|rewrite act_other by exact Hne; apply Hf].
      specialize (Hf p). unfold act. destruct (w_pc w p) eqn:Hp; try congruence.
      + destruct (w_file w); rewrite w_pc_eq; discriminate.
      + destruct (w_file w) as [[? ?]|]; rewrite w_pc_eq; discriminate.
      + rewrite w_pc_eq. destruct (is_old _ _ _); discriminate.
      + rewrite w_pc_eq. discriminate.
      + rewrite w_pc_eq. discriminate.
      + rewrite w_pc_eq. discriminate.
      + destruct (H p (or_intror (or_intror Hp))) as (m&E). rewrite E, w_pc_eq. discriminate.
    - rewrite pc_set. destruct (q =? p); [discriminate|apply Hf].
  Qed.
  Lemma run_not_failed es now : always timeout (fun w e => holders_in_time timeout w /\ removes_only_stale timeout w e) es (start now) ->
    forall p, w_pc (run timeout es (start now)) p <> Failed.
  Proof.
    induction es as [|e es IH] using rev_ind; intros H; [discriminate|].
    apply always_snoc in H. destruct H as [H [H1 H2]]. rewrite run_app. cbn. apply not_failed_exec; [now apply run_inv|now apply IH].
  Qed.

  (** without old files and pauses nobody removes a lock of others *)
  Definition no_removal (w : world) : Prop := forall p, w_pc w p <> RemoveOld.
  Lemma no_removal_exec e w : no_removal w -> (forall p m, w_pc w p = Compare m -> (Z.abs (w_now w - m) <= timeout)%Z) -> no_removal (exec timeout e w).
  Proof.
    intros Hf Hc p. destruct e as [d|q|q|q|q]; cbn [exec]; try apply Hf.
    - destruct (w_pc w q); try apply Hf. rewrite pc_set. destruct (q =? p); [discriminate|apply Hf].
    - destruct (w_pc w q); try apply Hf. rewrite pc_set. destruct (q =? p); [discriminate|apply Hf].
    - destruct (Nat.eq_dec q p) as [->|Hne]; [|rewrite act_other by exact Hne; apply Hf].
      specialize (Hf p). unfold act. destruct (w_pc w p) eqn:Hp; try congruence.
      + destruct (w_file w); rewrite w_pc_eq; discriminate.
      + destruct (w_file w) as [[? ?]|]; rewrite w_pc_eq; discriminate.
      + rewrite w_pc_eq. specialize (Hc p _ Hp). unfold is_old. destruct (Z.ltb_spec timeout (Z.abs (w_now w - mtime))); [lia|]. rewrite andb_false_r. discriminate.
      + rewrite w_pc_eq. discriminate.
      + rewrite w_pc_eq. discriminate.
      + destruct (w_file w); rewrite w_pc_eq; discriminate.
    - rewrite pc_set. destruct (q =? p); [discriminate|apply Hf].
  Qed.
  Lemma fresh_all es now : always timeout (fun w _ => ~ stale timeout w /\ forall p m, w_pc w p = Compare m -> (Z.abs (w_now w - m) <= timeout)%Z) es (start now) ->
    no_removal (run timeout es (start now)) /\ always timeout (fun w e => holders_in_time timeout w /\ removes_only_stale timeout w e) es (start now).
  Proof.
    induction es as [|e es IH] using rev_ind; intros H.
    - split; [discriminate|]. intros pre e post Heq. destruct pre; discriminate.
    - apply always_snoc in H. destruct H as [H [H1 H2]]. destruct (IH H) as [I1 I2]. split.
      + rewrite run_app. cbn. now apply no_removal_exec.
      + intros pre e' post Heq. destruct post as [|x post] using rev_ind.
        * apply app_inj_tail in Heq. destruct Heq as [<- <-]. split; [intros p _; exact H1|]. intros p _ Hp. exfalso. now apply (I1 p).
        * rewrite app_comm_cons, app_assoc in Heq. apply app_inj_tail in Heq. destruct Heq as [Heq _]. now apply (I2 pre e' post).
  Qed.
End P.
