From Coq Require Import String.
From Verif Require Import Base ListLemmas PyDict TouchModel TouchSpec.
Local Open Scope list_scope.
Local Notation length := List.length.

Definition pos (d : counters) : Prop := dict_ok d /\ forall f n, dget d f = Some n -> (0 < n)%Z.
Lemma count_nonneg d f : pos d -> (0 <= count d f)%Z.
Proof. intros [_ H]. unfold count. destruct (dget d f) eqn:E; [apply H in E; lia|lia]. Qed.
Lemma in_use_count d f : pos d -> In f (dkeys d) <-> (0 < count d f)%Z.
Proof.
  intros [_ H]. rewrite <- dget_keys. unfold count. destruct (dget d f) eqn:E; split; intros; try congruence; try lia; now apply H in E.
Qed.
Lemma count_dset d f n g : count (dset d f n) g = if path_eqb f g then n else count d g.
Proof. unfold count. rewrite dget_dset. cbn. now destruct (path_eqb f g). Qed.
Lemma path_eqb_refl f : path_eqb f f = true.
Proof. now apply path_eqb_eq. Qed.
Lemma path_eqb_sym f g : path_eqb f g = path_eqb g f.
Proof. exact (keqb_sym (K := path) f g). Qed.
Lemma occ_cons f g fs : occurrences f (g :: fs) = ((if path_eqb f g then 1 else 0) + occurrences f fs)%Z.
Proof. unfold occurrences. cbn. destruct (path_eqb f g); cbn [length]; lia. Qed.
Lemma occ_nonneg f fs : (0 <= occurrences f fs)%Z.
Proof. unfold occurrences. lia. Qed.

Lemma extend_spec fs : forall d, pos d -> pos (extend d fs) /\ forall f, count (extend d fs) f = (count d f + occurrences f fs)%Z.
Proof.
  induction fs as [|g fs IH]; intros d Hp; [split; [exact Hp|intros f; unfold occurrences; cbn; lia]|]. cbn [extend fold_left].
  assert (Hp' : pos (dset d g (count d g + 1)%Z)).
  { pose proof (count_nonneg d g Hp). destruct Hp as [Hd Hn]. split; [now apply dict_ok_dset|]. intros f n. rewrite dget_dset. cbn. destruct (path_eqb g f); [|apply Hn]. intros E. injection E as <-. lia. }
  destruct (IH _ Hp') as [A B]. split; [exact A|]. intros f. unfold extend in *. rewrite B, count_dset, occ_cons, (path_eqb_sym f g).
  destruct (path_eqb g f) eqn:E; [apply path_eqb_eq in E; subst|]; lia.
Qed.
Lemma remove1_spec d g : pos d -> pos (remove1 d g) /\ forall f, count (remove1 d g) f = if path_eqb f g then Z.max 0 (count d f - 1) else count d f.
Proof.
  intros Hp. pose proof (count_nonneg d g Hp) as Hc. unfold remove1. rewrite count_dset, path_eqb_refl.
  assert (Hok : dict_ok (dset d g (count d g - 1)%Z)) by (apply dict_ok_dset, Hp).
  destruct (Z.leb_spec (count d g - 1) 0) as [Hle|Hgt].
  - split.
    + split; [now apply dict_ok_ddel|]. intros f n. rewrite dget_ddel by exact Hok. cbn. destruct (path_eqb g f) eqn:E; [discriminate|]. rewrite dget_dset. cbn. rewrite E. apply Hp.
    + intros f. unfold count at 1. rewrite dget_ddel by exact Hok. cbn. rewrite (path_eqb_sym f g). destruct (path_eqb g f) eqn:E.
      * apply path_eqb_eq in E. subst. lia.
      * rewrite dget_dset. cbn. rewrite E. reflexivity.
  - split.
    + split; [exact Hok|]. intros f n. rewrite dget_dset. cbn. destruct (path_eqb g f); [|apply Hp]. intros E. injection E as <-. lia.
    + intros f. rewrite count_dset, (path_eqb_sym f g). destruct (path_eqb g f) eqn:E; [apply path_eqb_eq in E; subst; lia|reflexivity].
Qed.
Lemma remove_spec fs : forall d, pos d -> pos (remove d fs) /\ forall f, count (remove d fs) f = Z.max 0 (count d f - occurrences f fs)%Z.
Proof.
  induction fs as [|g fs IH]; intros d Hp; [split; [exact Hp|intros f; pose proof (count_nonneg d f Hp); unfold occurrences; cbn; lia]|]. cbn [remove fold_left].
  destruct (remove1_spec d g Hp) as [A B]. destruct (IH _ A) as [C D]. split; [exact C|]. intros f. unfold remove in *. rewrite D, B, occ_cons.
  pose proof (occ_nonneg f fs). destruct (path_eqb f g); lia.
Qed.

Lemma files_other e w : match e with Acquire _ | Release _ => True | _ => t_files (exec e w) = t_files w end.
Proof. destruct e; cbn; auto. unfold thread_step. destruct (t_pc w) as [| |[|f l]|]; try reflexivity. destruct (t_exists w f); reflexivity. Qed.

Lemma acquired_app f a b : acquired f (a ++ b) = (acquired f a + acquired f b)%Z.
Proof. induction a as [|e a IH]; [reflexivity|]. cbn. destruct e; rewrite ?IH; lia. Qed.
Lemma released_app f a b : released f (a ++ b) = (released f a + released f b)%Z.
Proof. induction a as [|e a IH]; [reflexivity|]. cbn. destruct e; rewrite ?IH; lia. Qed.

Lemma run_snoc es e w : run (es ++ [e]) w = exec e (run es w).
Proof. unfold run. now rewrite fold_left_app. Qed.
Lemma run_pos ex es : pos (t_files (run es (start ex))) /\
  (forall f, (acquired f es - released f es <= count (t_files (run es (start ex))) f)%Z) /\
  (forall f, balanced f es -> count (t_files (run es (start ex))) f = (acquired f es - released f es)%Z).
Proof.
  induction es as [|e es IH] using rev_ind.
  - cbn. split; [split; [constructor|discriminate]|]. split; intros f; unfold count; cbn; [lia|reflexivity].
  - destruct IH as (Hp&Hge&Heq). rewrite run_snoc.
    assert (Hb : forall f, balanced f (es ++ [e]) -> balanced f es) by (intros f H pre post E; apply (H pre (post ++ [e])); rewrite E; now rewrite app_assoc).
    assert (Hbe : forall f, balanced f (es ++ [e]) -> (released f (es ++ [e]) <= acquired f (es ++ [e]))%Z) by (intros f H; apply (H _ []); now rewrite app_nil_r).
    pose proof (files_other e (run es (start ex))) as Hf.
    destruct e; cbn [exec t_files].
    + destruct (extend_spec fs _ Hp) as [A B]. split; [exact A|]. split; intros f; [specialize (Hge f)|intros H; specialize (Heq f (Hb f H))]; rewrite B, acquired_app, released_app; cbn; lia.
    + destruct (remove_spec fs _ Hp) as [A B]. split; [exact A|]. split; intros f; [specialize (Hge f)|intros H; specialize (Heq f (Hb f H)); specialize (Hbe f H); revert Hbe]; rewrite B, !acquired_app, !released_app; cbn; lia.
    + change (thread_step (run es (start ex))) with (exec Step (run es (start ex))). rewrite Hf. split; [exact Hp|]. split; intros f; [specialize (Hge f)|intros H; specialize (Heq f (Hb f H))]; rewrite acquired_app, released_app; cbn; lia.
    + split; [exact Hp|]. split; intros f0; [specialize (Hge f0)|intros H; specialize (Heq f0 (Hb f0 H))]; rewrite acquired_app, released_app; cbn; lia.
    + split; [exact Hp|]. split; intros f0; [specialize (Hge f0)|intros H; specialize (Heq f0 (Hb f0 H))]; rewrite acquired_app, released_app; cbn; lia.
Qed.

(** parents *)
Lemma parents_rev_spec r d : In d (parents_rev r) <-> ancestor d (rev r).
Proof.
  induction r as [|x r IH]; [split; [intros []|intros (H1&rest&H2&E)]; destruct d; [congruence|discriminate]|].
  cbn [parents_rev rev]. destruct r as [|y r].
  - split; [intros []|]. intros (H1&rest&H2&E). cbn in E. destruct d as [|z d]; [congruence|]. injection E as <- E. destruct d; [|discriminate]. destruct rest; [congruence|discriminate].
  - set (r' := y :: r) in *. split.
    + intros [<-|H].
      * split; [|exists [x]; split; [discriminate|reflexivity]]. unfold r'. cbn. destruct (rev r); discriminate.
      * apply IH in H. destruct H as (H1&rest&H2&E). split; [exact H1|]. exists (rest ++ [x]). split; [destruct rest; discriminate|]. rewrite E. now rewrite app_assoc.
    + intros (H1&rest&H2&E). destruct rest as [|z rest] using rev_ind; [congruence|]. rewrite app_assoc in E. apply app_inj_tail in E. destruct E as [E <-].
      destruct rest as [|a rest]; [left; now rewrite app_nil_r in E|right]. apply IH. split; [exact H1|]. exists (a :: rest). split; [discriminate|exact E].
Qed.
Lemma all_parent_dirs_spec f ps : all_parent_dirs f = Some ps -> forall d, In d ps <-> ancestor d f.
Proof. intros E d. assert (ps = parents_rev (rev f)) as -> by (unfold all_parent_dirs in E; destruct f; [discriminate|congruence]). rewrite parents_rev_spec, rev_involutive. reflexivity. Qed.

Lemma add_key_In l f g : In g (add_key l f) <-> g = f \/ In g l.
Proof.
  unfold add_key. destruct (existsb (path_eqb f) l) eqn:E.
  - split; [auto|]. intros [->|H]; [|exact H]. apply existsb_exists in E. destruct E as (x&Hx&E). apply path_eqb_eq in E. now subst.
  - rewrite in_app_iff. cbn. intuition auto.
Qed.
Lemma fold_add_In ps : forall l g, In g (fold_left add_key ps l) <-> In g ps \/ In g l.
Proof. induction ps as [|p ps IH]; intros l g; cbn; [tauto|]. rewrite IH, add_key_In. intuition auto. Qed.
Lemma snapshot_In fs : forall acc l, snapshot fs acc = Some l -> forall g, In g l <-> In g acc \/ exists f, In f fs /\ (g = f \/ ancestor g f).
Proof.
  induction fs as [|f fs IH]; intros acc l H g; cbn in H.
  - injection H as <-. split; [auto|]. intros [|(f&[]&_)]; assumption.
  - destruct (all_parent_dirs f) as [ps|] eqn:E; [|discriminate]. rewrite (IH _ _ H g), fold_add_In, add_key_In, (all_parent_dirs_spec f ps E). split.
    + intros [[Ha|[->|Ha]]|(f'&Hf&Ha)]; [right; exists f; cbn; auto|right; exists f; cbn; auto|auto|right; exists f'; cbn; auto].
    + intros [Ha|(f'&[<-|Hf]&[->|Ha])]; auto; right; exists f'; auto.
Qed.
Lemma snapshot_Some fs : forall acc, ~ In [] fs -> snapshot fs acc <> None.
Proof.
  induction fs as [|f fs IH]; intros acc H; [discriminate|]. cbn. destruct f as [|x f]; [exfalso; apply H; now left|]. cbn -[parents_rev rev]. apply IH. intros Hin. apply H. now right.
Qed.

Lemma exec_Step_pc e w : e <> Step -> t_pc w <> NotStarted -> t_pc (exec e w) = t_pc w /\ t_log (exec e w) = t_log w.
Proof. destruct e; cbn; intros H1 H2; auto; [|congruence]. destruct (t_pc w); try congruence; auto. Qed.
Lemma exec_log e w : exists l, t_log (exec e w) = t_log w ++ l.
Proof.
  destruct e; cbn; try (exists []; now rewrite app_nil_r). unfold thread_step. destruct (t_pc w) as [| |[|f l]|]; try (exists []; now rewrite app_nil_r).
  destruct (t_exists w f); [exists [f]; reflexivity|exists []; now rewrite app_nil_r].
Qed.
Lemma run_log es : forall w, exists l, t_log (run es w) = t_log w ++ l.
Proof.
  induction es as [|e es IH]; intros w; [exists []; now rewrite app_nil_r|]. cbn. destruct (IH (exec e w)) as (l&E). destruct (exec_log e w) as (l'&E').
  exists (l' ++ l). unfold run in E. rewrite E, E', app_assoc. reflexivity.
Qed.
Lemma died_stays es : forall w, t_pc w = Died -> t_pc (run es w) = Died.
Proof. induction es as [|e es IH]; intros w H; [exact H|]. cbn. apply IH. destruct e; cbn; rewrite ?H; auto. unfold thread_step. now rewrite H. Qed.

(** a round *)
Lemma round_spec es : forall w todo, t_pc w = Touching todo -> t_pc (run es w) <> Died ->
  exists l, t_log (run es w) = t_log w ++ l /\ (length todo <= steps es -> exists l', l = todo ++ l') /\ (steps es <= length todo -> l = firstn (steps es) todo).
Proof.
  induction es as [|e es IH]; intros w todo Hp Hd.
  - exists []. rewrite app_nil_r. split; [reflexivity|]. split; [|reflexivity]. intros Hl. destruct todo; [|cbn in Hl; lia]. exists []. reflexivity.
  - assert (Hstep : e = Step \/ e <> Step) by (destruct e; auto; right; discriminate). destruct Hstep as [->|Hne].
    + change (steps (Step :: es)) with (S (steps es)). destruct todo as [|f todo].
      * destruct (run_log (Step :: es) w) as (l&E). exists l. split; [exact E|]. split; [intros _; exists l; reflexivity|]. cbn. lia.
      * cbn [run fold_left exec]. unfold thread_step. rewrite Hp. destruct (t_exists w f) eqn:Ef.
        -- destruct (IH (mk_world (t_files w) (Touching todo) (t_exists w) (t_log w ++ [f])) todo eq_refl) as (l&E&A&B).
           { intros H. apply Hd. cbn. unfold thread_step. rewrite Hp, Ef. exact H. }
           exists (f :: l). unfold run in E. rewrite E. cbn [t_log]. rewrite <- app_assoc. split; [reflexivity|]. split.
           ++ cbn [length]. intros Hl. destruct (A ltac:(lia)) as (l'&->). exists l'. reflexivity.
           ++ cbn [length]. intros Hl. rewrite (B ltac:(lia)). reflexivity.
        -- exfalso. apply Hd. change (run (Step :: es) w) with (run es (thread_step w)). unfold thread_step. rewrite Hp, Ef. now apply died_stays.
    + destruct (exec_Step_pc e w Hne ltac:(congruence)) as [E1 E2].
      replace (steps (e :: es)) with (steps es) by (unfold steps; destruct e; try reflexivity; congruence).
      destruct (IH (exec e w) todo ltac:(congruence) Hd) as (l&E&A&B). exists l. rewrite E2 in E. auto.
Qed.

Lemma extend_keys fs : forall d f, In f (dkeys (extend d fs)) -> In f fs \/ In f (dkeys d).
Proof.
  induction fs as [|g fs IH]; intros d f H; [now right|]. cbn in H. apply IH in H. destruct H as [H|H]; [left; now right|].
  rewrite dkeys_dset in H. destruct (dhas d g); [now right|]. apply in_app_or in H. destruct H as [H|[<-|[]]]; [now right|left; now left].
Qed.
Lemma remove_keys fs : forall d f, In f (dkeys (remove d fs)) -> In f (dkeys d) \/ In f fs.
Proof.
  induction fs as [|g fs IH]; intros d f H; [now left|]. cbn in H. apply IH in H. destruct H as [H|H]; [|right; now right].
  assert (H' : In f (dkeys (dset d g (count d g - 1)%Z))).
  { unfold remove1 in H. destruct (_ <=? 0)%Z; [|exact H]. unfold dkeys in *. apply in_map_iff in H. destruct H as (y&<-&Hy). apply in_map. eapply In_ddel; eauto. }
  rewrite dkeys_dset in H'. destruct (dhas d g); [now left|]. apply in_app_or in H'. destruct H' as [H'|[<-|[]]]; [now left|right; now left].
Qed.
Lemma remove_keys' fs d f : pos d -> In f (dkeys (remove d fs)) -> In f (dkeys d).
Proof.
  intros Hp H. destruct (remove_spec fs d Hp) as [A B]. apply (in_use_count _ _ A) in H. rewrite B in H. apply in_use_count; [exact Hp|]. pose proof (occ_nonneg f fs). lia.
Qed.

Lemma survives ex es : well_behaved ex es ->
  t_pc (run es (start ex)) <> Died.
Proof.
  intros H. enough (G : pos (t_files (run es (start ex))) /\ (forall f g, In f (dkeys (t_files (run es (start ex)))) -> f <> [] /\ (g = f \/ ancestor g f -> t_exists (run es (start ex)) g = true)) /\
    match t_pc (run es (start ex)) with Died => False | Touching l => forall f, In f l -> t_exists (run es (start ex)) f = true | _ => True end).
  { destruct G as (_&_&G). intros E. now rewrite E in G. }
  induction es as [|e es IH] using rev_ind.
  - cbn. split; [split; [constructor|discriminate]|]. split; [intros f g []|exact I].
  - assert (H' : well_behaved ex es).
    { destruct H as [H1 H2]. split; [intros f Hf; apply (H1 f), in_or_app; now left|]. intros pre fs post f g E. apply (H2 pre fs (post ++ [e])). rewrite E. now rewrite <- app_assoc. }
    destruct (IH H') as (Hp&Hk&Ht). clear IH. rewrite run_snoc.
    assert (Hp' : pos (t_files (exec e (run es (start ex))))) by (rewrite <- run_snoc; apply run_pos).
    split; [exact Hp'|]. destruct H as [H1 H2]. set (w := run es (start ex)) in *. destruct e; cbn [exec t_files t_pc t_exists] in *.
    + split.
      * intros f g Hf. apply extend_keys in Hf. destruct Hf as [Hf|Hf]; [apply (H2 es fs [] f g eq_refl Hf)|now apply Hk].
      * destruct (t_pc w); auto.
    + split; [|exact Ht]. intros f g Hf. apply Hk. now apply remove_keys' in Hf.
    + unfold thread_step. destruct (t_pc w) as [| |[|f l]|] eqn:Ep; cbn [t_files t_pc t_exists]; rewrite ?Ep; auto.
      * split; [exact Hk|]. destruct (snapshot (dkeys (t_files w)) []) as [l|] eqn:Es.
        -- intros f Hf. apply (snapshot_In _ _ _ Es) in Hf. destruct Hf as [[]|(f'&Hf'&Ha)]. now apply (Hk f' f).
        -- apply snapshot_Some in Es; [exact Es|]. intros Hn. now apply (Hk [] []) in Hn.
      * rewrite (Ht f (or_introl eq_refl)). cbn. split; [exact Hk|]. intros g Hg. apply Ht. now right.
    + split.
      * intros f0 g Hf. destruct (Hk f0 g Hf) as [A B]. split; [exact A|]. intros C. rewrite (B C). apply orb_true_r.
      * destruct (t_pc w); auto. intros g Hg. rewrite (Ht g Hg). apply orb_true_r.
    + exfalso. apply (H1 f). apply in_or_app. right. now left.
Qed.
