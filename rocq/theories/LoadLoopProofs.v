From Coq Require Import List ZArith String Bool Lia Sorted Permutation.
From Verif Require Import Base ListLemmas PyDict LoadModel LoadSpec OptimProofs LoadProofs.
Import ListNotations.

Section P.
Context {V : Type}.
Implicit Types (p : preload V) (m : module V) (d : list (string * V)) (f : file V) (st : lstate V).

Variables (t : task) (first : bool) (main : option (file V)) (m0 : module V).
Hypothesis m0_ok : module_ok m0.
Let training := match t with TTrain => true | _ => false end.

Lemma wanted_spec p w : wanted training first p = Ok w -> (w = true <-> used t first p) /\ p_init p <> InitOther.
Proof.
  unfold wanted, used, training. destruct (p_init p); intros [= <-]; (split; [|discriminate]).
  - destruct t; cbn; intuition congruence.
  - tauto.
  - tauto.
Qed.

Definition main_get (n : string) : option V := match main with Some f => dget (main_params f) n | None => None end.

Fixpoint val (l : list (preload V)) (n : string) (v : V) : Prop :=
  match l with
  | [] => match main_get n with Some w => v = w | None => value_of m0 n v end
  | p :: l => (used t first p /\ gives p n v) \/ (~ (used t first p /\ exists w, gives p n w) /\ val l n v)
  end.
Definition load_in (l : list (preload V)) (n : string) : Prop :=
  main_get n <> None \/ exists p v, In p l /\ used t first p /\ gives p n v.
Fixpoint miss (l : list (preload V)) (n : string) : Prop :=
  match l with
  | [] => main <> None /\ is_param m0 n /\ main_get n = None
  | p :: l =>
      (~ used t first p /\ miss l n) \/
      (used t first p /\
        match p_source p with
        | SPattern q => miss l n /\ q n = false
        | SFile _ => (forall v, ~ gives p n v) /\
            (miss l n \/ (p_ignore_missing p = false /\ is_param m0 n /\ String.prefix (p_prefix p) n = true /\ ~ load_in l n))
        end)
  end.
Definition ign (l : list (preload V)) (n : string) : Prop :=
  exists p v, In p l /\ p_init p = InitAlways /\ gives p n v /\ is_param m0 n.

Lemma miss_param l n : miss l n -> is_param m0 n.
Proof.
  induction l as [|p l IH]; cbn [miss]; [tauto|]. intros [[_ H]|[_ H]]; [auto|].
  destruct (p_source p); [|]; intuition.
Qed.
Lemma load_in_cons p l n : load_in (p :: l) n <-> (used t first p /\ exists v, gives p n v) \/ load_in l n.
Proof.
  unfold load_in. split.
  - intros [H|(p' & v & [<-|Hin] & Hu & Hg)]; [auto| |].
    + left. split; [exact Hu|now exists v].
    + right. right. now exists p', v.
  - intros [[Hu (v & Hg)]|[H|(p' & v & Hin & Hu & Hg)]].
    + right. exists p, v. split; [now left|auto].
    + now left.
    + right. exists p', v. split; [now right|auto].
Qed.
Lemma miss_not_loaded l n : miss l n -> ~ load_in l n.
Proof.
  induction l as [|p l IH]; cbn [miss].
  - intros (_ & _ & H) [X|(? & ? & [] & _)]. congruence.
  - rewrite load_in_cons. intros [[Hu H]|[Hu H]].
    + specialize (IH H). tauto.
    + destruct (p_source p) as [q|f] eqn:Es.
      * destruct H as [H _]. specialize (IH H). intros [[_ (v & Hg)]|X]; [|tauto]. apply gives_file in Hg as (f & Hf). congruence.
      * destruct H as [Hn H]. intros [[_ (v & Hg)]|X]; [now apply (Hn v)|]. destruct H as [H|(_ & _ & _ & H)]; tauto.
Qed.

Record Inv (l : list (preload V)) st : Prop := {
  i_alike : alike (l_model st) m0;
  i_val : forall n v, is_param m0 n -> (value_of (l_model st) n v <-> val l n v);
  i_non : forall n v, In (n, (KNonPersistent, v)) (l_model st) <-> In (n, (KNonPersistent, v)) m0;
  i_loaded : forall n, In n (l_loaded st) <-> load_in l n;
  i_missing : forall n, In n (l_missing st) <-> miss l n;
  i_ignore : forall n, In n (l_ignore st) <-> ign l n }.

Lemma inv_main : Inv [] (load_main m0 main).
Proof.
  assert (forall n, ~ ign [] n) as Hi by (intros n (p & v & [] & _)).
  assert (forall n, load_in [] n <-> main_get n <> None) as Hl.
  { intros n. unfold load_in. split; [intros [H|(? & ? & [] & _)]; exact H|auto]. }
  unfold load_main, main_get in *. destruct main as [f|] eqn:Em.
  - fold (main_params f). set (sd := main_params f). destruct (load_state_dict m0 sd) as [[m' mi] un] eqn:E.
    assert (m' = fst (fst (load_state_dict m0 sd))) as Em' by now rewrite E.
    assert (mi = diff (state_keys m0) (map fst sd)) as Emi by (unfold load_state_dict in E; now injection E).
    constructor; cbn [l_model l_loaded l_missing l_ignore].
    + rewrite Em'. apply lsd_alike.
    + intros n v Hp. rewrite Em', lsd_value by assumption. cbn [val]. unfold main_get. rewrite Em. reflexivity.
    + intros n v. rewrite Em'. apply lsd_nonpersistent.
    + intros n. rewrite Hl. unfold sd. rewrite <- dget_ex. destruct (dget (main_params f) n) as [w|].
      * split; [discriminate|]. intros _. now exists w.
      * split; [intros (w & X); discriminate|congruence].
    + intros n. rewrite Emi, In_diff, state_keys_In. cbn [miss]. unfold main_get. rewrite Em, <- dget_ex. unfold sd.
      destruct (dget (main_params f) n) as [w|].
      * split; [intros [_ X]; exfalso; apply X; now exists w|intros (_ & _ & X); discriminate].
      * split; [intros [X _]; split; [discriminate|auto]|intros (_ & X & _)]. split; [exact X|]. intros (w & Y); discriminate.
    + intros n. split; [intros []|intros X; destruct (Hi n X)].
  - constructor; cbn [l_model l_loaded l_missing l_ignore].
    + reflexivity.
    + intros n v _. cbn [val]. unfold main_get. rewrite Em. reflexivity.
    + reflexivity.
    + intros n. rewrite Hl. split; [intros []|congruence].
    + intros n. cbn [miss]. rewrite Em. split; [intros []|]. intros (X & _). congruence.
    + intros n. split; [intros []|intros X; destruct (Hi n X)].
Qed.

Lemma val_fun l n v v' : (forall p, In p l -> preload_ok p) ->
  (forall p, In p l -> used t first p -> forall f, p_source p = SFile f -> is_ok (preload_state p f) = true) ->
  is_param m0 n -> val l n v -> val l n v' -> v = v'.
Proof.
  intros Hok Hst Hp. induction l as [|p l IH]; cbn [val].
  - destruct (main_get n); [congruence|]. intros (k & H) (k' & H'). now destruct (in_ok _ _ _ _ _ _ m0_ok H H').
  - intros [[Hu H]|[Hn H]] [[Hu' H']|[Hn' H']].
    + eapply (gives_fun p n); eauto.
      * apply Hok. now left.
      * destruct (gives_file _ _ _ H) as (f & Hf). exists f. split; [exact Hf|]. apply Hst; [now left|exact Hu|exact Hf].
    + exfalso. apply Hn'. split; [exact Hu|now exists v].
    + exfalso. apply Hn. split; [exact Hu'|now exists v'].
    + apply IH; auto. intros q Hq. apply Hok. now right. intros q Hq. apply Hst. now right.
Qed.

Lemma ign_cons_no p l n : p_init p <> InitAlways -> (ign (p :: l) n <-> ign l n).
Proof.
  intros H. unfold ign. split.
  - intros (p' & v & [<-|Hin] & X & Y); [congruence|]. now exists p', v.
  - intros (p' & v & Hin & X). exists p', v. split; [now right|exact X].
Qed.
Lemma ign_pattern p l n q : p_source p = SPattern q -> (ign (p :: l) n <-> ign l n).
Proof.
  intros H. unfold ign. split.
  - intros (p' & v & [<-|Hin] & X & Y & Z). { apply gives_file in Y as (f & Hf). congruence. } now exists p', v.
  - intros (p' & v & Hin & X). exists p', v. split; [now right|exact X].
Qed.

Lemma inv_step p l st st' : preload_ok p -> Inv l st -> preload_step training first st p = Ok st' -> Inv (p :: l) st'.
Proof.
  intros Hok I. unfold preload_step. intros H. apply bind_Ok in H as (w & Ew & H).
  destruct (wanted_spec p w Ew) as [Hw Hno]. destruct w; cbn [negb] in H.
  2: { assert (~ used t first p) as Hu by (intros X; apply Hw in X; discriminate). injection H as <-.
    assert (p_init p <> InitAlways) as Ha by (intros X; apply Hu; unfold used; now rewrite X).
    destruct I as [I1 I2 I3 I4 I5 I6]. constructor; auto.
    - intros n v Hp. rewrite (I2 n v Hp). cbn [val]. tauto.
    - intros n. rewrite I4, load_in_cons. tauto.
    - intros n. rewrite I5. cbn [miss]. tauto.
    - intros n. rewrite I6. symmetry. now apply ign_cons_no. }
  assert (used t first p) as Hu by now apply Hw.
  destruct (p_source p) as [q|f] eqn:Es.
  - injection H as <-. destruct I as [I1 I2 I3 I4 I5 I6].
    assert (forall n v, ~ gives p n v) as Hg by (intros n v X; apply gives_file in X as (f & X); congruence).
    constructor; cbn [l_model l_loaded l_missing l_ignore]; auto.
    + intros n v Hp. rewrite (I2 n v Hp). cbn [val]. split; [intros X; right; split; [|exact X]|intros [[_ X]|[_ X]]; [destruct (Hg _ _ X)|exact X]].
      intros (_ & w & Y). destruct (Hg _ _ Y).
    + intros n. rewrite I4, load_in_cons. split; [auto|]. intros [[_ (w & Y)]|X]; [destruct (Hg _ _ Y)|exact X].
    + intros n. rewrite In_diff, filter_In, andb_true_iff, mem_In, state_keys_In, I5. cbn [miss]. rewrite Es. split.
      * intros [X Y]. right. split; [exact Hu|]. split; [exact X|]. destruct (q n) eqn:Eq; [|reflexivity]. exfalso. apply Y.
        split; [|auto]. eapply alike_param; [apply alike_sym, I1|]. eapply miss_param, X.
      * intros [[X _]|[_ [X Y]]]; [tauto|]. split; [exact X|]. intros (_ & Z & _). congruence.
    + intros n. rewrite I6. symmetry. eapply ign_pattern, Es.
  - apply bind_Ok in H as (sd & Esd & H). destruct (load_state_dict (l_model st) sd) as [[m' mi] un] eqn:E.
    apply bind_Ok in H as (pk & Epk & H).
    destruct (inter (map fst sd) pk) as [|x r] eqn:Ei; [discriminate|]. injection H as <-.
    destruct I as [I1 I2 I3 I4 I5 I6].
    assert (m' = fst (fst (load_state_dict (l_model st) sd))) as Em' by now rewrite E.
    assert (mi = diff (state_keys (l_model st)) (map fst sd)) as Emi by (unfold load_state_dict in E; now injection E).
    assert (alike m' m0) as Hal by (rewrite Em'; eapply alike_trans; [apply lsd_alike|exact I1]).
    destruct (state_spec p f sd Es Hok Esd) as [Hnd Hg].
    assert (forall n, In n (map fst sd) <-> exists v, gives p n v) as Hk by (intros n; now apply (state_keys_spec p f sd n)).
    assert (forall n, is_param (l_model st) n <-> is_param m0 n) as Hpar.
    { intros n. split; apply alike_param; [exact I1|now apply alike_sym]. }
    assert (forall n, In n pk <-> is_param m0 n /\ String.prefix (p_prefix p) n = true) as Hpk.
    { intros n. destruct (String.eqb (p_prefix p) "") eqn:E0.
      - injection Epk as <-. apply String.eqb_eq in E0. rewrite E0, state_keys_In, Hpar. destruct n; cbn; tauto.
      - destruct (filter _ (state_keys m')) as [|y ys] eqn:Ef; [discriminate|]. injection Epk as <-. rewrite <- Ef, filter_In, state_keys_In.
        split; (intros [X Y]; split; [|exact Y]); eapply alike_param; try exact X; [exact Hal|now apply alike_sym]. }
    constructor; cbn [l_model l_loaded l_missing l_ignore].
    + exact Hal.
    + intros n v Hp. rewrite Em', lsd_value; [|eapply alike_ok; [apply alike_sym, I1|exact m0_ok]|now apply Hpar]. cbn [val].
      destruct (dget sd n) as [w|] eqn:Ed.
      * apply Hg in Ed as Hgw. split; [intros ->; auto|]. intros [[_ X]|[X _]]; [apply Hg in X; congruence|]. exfalso. apply X. split; [exact Hu|now exists w].
      * rewrite (I2 n v Hp). split; [|intros [[_ X]|[_ X]]; [apply Hg in X; congruence|exact X]].
        intros X. right. split; [|exact X]. intros (_ & w & Y). apply Hg in Y. congruence.
    + intros n v. rewrite Em', lsd_nonpersistent. apply I3.
    + intros n. rewrite in_app_iff, I4, Hk, load_in_cons. tauto.
    + intros n. cbn [miss]. rewrite Es.
      assert (In n (diff (l_missing st) (map fst sd)) <-> (forall v, ~ gives p n v) /\ miss l n) as A.
      { rewrite In_diff, I5, Hk. split; [intros [X Y]|intros [Y X]]; (split; [|try exact X]); [|exact X|].
        - intros v Z. apply Y. now exists v.
        - intros (v & Z). now apply (Y v). }
      assert (In n (diff (inter pk mi) (l_loaded st ++ map fst sd)) <-> (forall v, ~ gives p n v) /\ is_param m0 n /\ String.prefix (p_prefix p) n = true /\ ~ load_in l n) as B.
      { rewrite In_diff, In_inter, Hpk, in_app_iff, I4, Hk, Emi, In_diff, state_keys_In, Hpar, Hk.
        split.
        - intros ((( X1 & X2) & (_ & X3)) & X4). split; [intros v Z; apply X3; now exists v|]. tauto.
        - intros (X1 & X2 & X3 & X4). split; [split; [tauto|]|].
          + split; [exact X2|]. intros (v & Z). now apply (X1 v).
          + intros [Z|(v & Z)]; [tauto|now apply (X1 v)]. }
      destruct (p_ignore_missing p) eqn:Eg.
      * rewrite A. split; [intros [X Y]; right; auto|]. intros [[X _]|[_ [X [Y|[Y _]]]]]; [tauto|auto|discriminate].
      * rewrite in_app_iff, A, B. split.
        -- intros [[X Y]|[X Y]]; right; (split; [exact Hu|]); (split; [exact X|]); [now left|right; tauto].
        -- intros [[X _]|[_ [X [Y|(_ & Y)]]]]; [tauto|left; auto|right; auto].
    + intros n. destruct (p_init p) eqn:Ep; try (rewrite ign_cons_no by congruence; apply I6).
      rewrite in_app_iff, In_inter, state_keys_In, Hpar, Hk, I6. unfold ign. split.
      * intros [(p' & v & X & Y)|[(v & X) Y]].
        -- exists p', v. split; [now right|exact Y].
        -- exists p, v. split; [now left|]. auto.
      * intros (p' & v & [<-|X] & Y & Z & Y2).
        -- right. split; [now exists v|exact Y2].
        -- left. exists p', v. auto.
Qed.

Lemma loop_app st a b : preload_loop training first st (a ++ b) =
  let* st' := preload_loop training first st a in preload_loop training first st' b.
Proof.
  revert st. induction a as [|p a IH]; intros st; cbn [preload_loop app]; [reflexivity|].
  destruct (preload_step training first st p); cbn [bind]; [apply IH|reflexivity].
Qed.

Lemma inv_loop l st' : (forall p, In p l -> preload_ok p) ->
  preload_loop training first (load_main m0 main) (rev l) = Ok st' ->
  Inv l st' /\ forall p, In p l -> used t first p -> forall f, p_source p = SFile f -> is_ok (preload_state p f) = true.
Proof.
  revert st'. induction l as [|p l IH]; intros st' Hok H; cbn [rev] in H.
  - injection H as <-. split; [apply inv_main|intros p []].
  - rewrite loop_app in H. apply bind_Ok in H as (st1 & H1 & H). cbn [preload_loop] in H. apply bind_Ok in H as (st2 & H2 & H). injection H as <-.
    destruct (IH st1) as [I Hs]; [intros q Hq; apply Hok; now right|exact H1|]. split.
    + eapply inv_step; eauto. apply Hok. now left.
    + intros q [<-|Hq] Hu f Hf; [|now apply Hs]. unfold preload_step in H2. apply bind_Ok in H2 as (w & Ew & H2).
      destruct (wanted_spec p w Ew) as [Hw _]. apply Hw in Hu. subst w. cbn [negb] in H2. rewrite Hf in H2.
      apply bind_Ok in H2 as (sd & -> & _). reflexivity.
Qed.

(* success of the loop *)
Lemma loop_ok l : (forall p, In p l -> preload_ok p) ->
  (forall p, In p l -> p_init p <> InitOther) ->
  (forall p f, In p l -> used t first p -> p_source p = SFile f -> is_ok (preload_state p f) = true /\
     exists n v, gives p n v /\ is_param m0 n /\ String.prefix (p_prefix p) n = true) ->
  exists st', preload_loop training first (load_main m0 main) (rev l) = Ok st'.
Proof.
  intros Hok Hi Hf. induction l as [|p l IH]; cbn [rev]; [eexists; reflexivity|].
  destruct IH as (st1 & H1).
  { intros q Hq; apply Hok; now right. } { intros q Hq; apply Hi; now right. } { intros q f Hq; apply Hf; now right. }
  destruct (inv_loop l st1) as [I _]; [intros q Hq; apply Hok; now right|exact H1|].
  rewrite loop_app, H1. cbn [bind preload_loop]. unfold preload_step.
  assert (exists w, wanted training first p = Ok w) as (w & Ew).
  { unfold wanted. specialize (Hi p (or_introl eq_refl)). destruct (p_init p); [| | |congruence]; eexists; reflexivity. }
  destruct (wanted_spec p w Ew) as [Hw _]. rewrite Ew. cbn [bind]. destruct w; cbn [negb bind]; [|eexists; reflexivity].
  assert (used t first p) as Hu by now apply Hw.
  destruct (p_source p) as [q|f] eqn:Es; cbn [bind]; [eexists; reflexivity|].
  destruct (Hf p f (or_introl eq_refl) Hu Es) as [Ho (n & v & Hg & Hp & Hpre)].
  destruct (preload_state p f) as [sd|] eqn:Esd; [|discriminate]. cbn [bind].
  destruct (load_state_dict (l_model st1) sd) as [[m' mi] un] eqn:E.
  assert (m' = fst (fst (load_state_dict (l_model st1) sd))) as Em' by now rewrite E.
  assert (alike m' m0) as Hal by (rewrite Em'; eapply alike_trans; [apply lsd_alike|apply I]).
  assert (In n (map fst sd)) as Hn by (apply (state_keys_spec p f sd n Es (Hok p (or_introl eq_refl)) Esd); now exists v).
  assert (exists pk, (if String.eqb (p_prefix p) "" then Ok (state_keys (l_model st1)) else
        match filter (String.prefix (p_prefix p)) (state_keys m') with [] => Err OtherException | _ => Ok (filter (String.prefix (p_prefix p)) (state_keys m')) end) = Ok pk /\ In n pk) as (pk & -> & Hpk).
  { destruct (String.eqb (p_prefix p) "").
    - eexists. split; [reflexivity|]. apply state_keys_In. eapply alike_param; [apply alike_sym, I|exact Hp].
    - assert (In n (filter (String.prefix (p_prefix p)) (state_keys m'))) as X.
      { apply filter_In. split; [|exact Hpre]. apply state_keys_In. eapply alike_param; [apply alike_sym, Hal|exact Hp]. }
      destruct (filter _ _) as [|y ys] eqn:Ef; [destruct X|]. eexists. split; [reflexivity|exact X]. }
  cbn [bind]. assert (In n (inter (map fst sd) pk)) as X by (apply In_inter; auto).
  destruct (inter (map fst sd) pk); [destruct X|]. cbn [bind]. eexists. reflexivity.
Qed.
End P.
