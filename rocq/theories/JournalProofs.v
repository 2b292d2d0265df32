From Coq Require Import String.
From Verif Require Import Base ListLemmas WalkModel JournalModel JournalSpec.
Local Open Scope nat_scope. Local Open Scope list_scope.

Lemma ctx_eqb_eq a b : ctx_eqb a b = true <-> a = b.
Proof. revert b. induction a as [|x a IH]; intros [|y b]; cbn; split; try congruence; intros H. - apply andb_true_iff in H. destruct H as [H1 H2]. apply Nat.eqb_eq in H1. apply IH in H2. congruence. - injection H as -> ->. rewrite Nat.eqb_refl. now apply IH. Qed.
Lemma in_outer_iff p c : p <> [] -> in_outer p c = true <-> ctx_accessible p c.
Proof.
  intros Hp. induction c as [|x c IH]; cbn [in_outer].
  - split; [discriminate|]. intros (i & E). symmetry in E. apply app_eq_nil in E. tauto.
  - destruct (ctx_eqb (x :: c) p) eqn:E.
    + apply ctx_eqb_eq in E. subst p. split; [intros _; now exists []|reflexivity].
    + rewrite IH. split; [intros (i & ->); now exists (x :: i)|]. intros ([|y i] & H); [cbn in H; subst p; assert (T : ctx_eqb (x :: c) (x :: c) = true) by (now apply ctx_eqb_eq); congruence|]. injection H as -> ->. now exists i.
Qed.
Lemma accessible_iff p c : is_parent_or_same p c = true <-> ctx_accessible p c.
Proof.
  unfold is_parent_or_same. destruct (ctx_eqb p c) eqn:E; [apply ctx_eqb_eq in E; subst c; split; [intros _; now exists []|reflexivity]|].
  destruct p as [|x p]; [split; [intros _; exists c; now rewrite app_nil_r|reflexivity]|]. destruct c as [|y c]; [split; [discriminate|]; intros (i & H); destruct i; discriminate|]. apply in_outer_iff. discriminate.
Qed.
Section J.
  Context {V : Type}.
  Implicit Types (j : @journal V) (e : @entry V) (ops : list (@op V)).
  Lemma size_eqb_eq a b : size_eqb a b = true <-> a = b.
  Proof. destruct a as [a|], b as [b|]; cbn; try (split; congruence). rewrite Nat.eqb_eq. split; congruence. Qed.
  Lemma sizes_eq a b : length a = length b -> forallb (fun p => size_eqb (fst p) (snd p)) (combine a b) = true <-> a = b.
  Proof.
    revert b. induction a as [|x a IH]; intros [|y b] H; try discriminate; cbn; [tauto|]. rewrite andb_true_iff, size_eqb_eq, IH by (cbn in H; congruence). split; [intros [-> ->]; reflexivity|intros E; injection E; auto].
  Qed.
  Lemma check_iff t e : check_template t e = Ok tt <-> fits t e.
  Proof.
    unfold check_template, fits. destruct t as [[dt ds]|]; [|split; [congruence|reflexivity]]. destruct (e_out e) as [[dt' ds']|]; [|split; [discriminate|intros H; specialize (H _ eq_refl); discriminate]]. cbn [x_dtype x_dims].
    unfold assert_. destruct (dt =? dt')%string eqn:E1; cbn [bind]; [apply String.eqb_eq in E1; subst dt'|apply String.eqb_neq in E1; split; [discriminate|intros H; specialize (H _ eq_refl); congruence]].
    destruct (length ds =? length ds') eqn:E2; cbn [bind]; [apply Nat.eqb_eq in E2|apply Nat.eqb_neq in E2; split; [discriminate|intros H; specialize (H _ eq_refl); injection H as ->; congruence]].
    pose proof (sizes_eq ds ds' E2) as S. destruct (forallb _ (combine ds ds')).
    - split; [|reflexivity]. intros _ x Hx. injection Hx as <-. rewrite (proj1 S eq_refl). reflexivity.
    - split; [discriminate|]. intros H. specialize (H _ eq_refl). injection H as ->. pose proof (proj2 S eq_refl); discriminate.
  Qed.
  Lemma check_err t e x : has_out e -> check_template t e = Err x -> x = AssertionError.
  Proof. unfold check_template, has_out, assert_. destruct t as [t|]; [|discriminate]. destruct (e_out e) as [o|]; [|congruence]. destruct (_ =? _)%string, (_ =? _), (forallb _ _); cbn; congruence. Qed.
  Lemma run_inv ops j j' rs : run j ops = (j', rs) -> j_idx j <= length (j_entries j) ->
    j_entries j' = j_entries j ++ appended ops /\ j_nodes j' = j_nodes j ++ nodes ops /\ j_idx j' = j_idx j + length (read rs) /\ j_idx j' <= length (j_entries j') /\
    read rs = firstn (length (read rs)) (skipn (j_idx j) (j_entries j')).
  Proof.
    revert j rs. induction ops as [|o ops IH]; intros j rs E Hi; cbn in E.
    - injection E as <- <-. cbn. rewrite !app_nil_r, Nat.add_0_r. auto.
    - destruct (do_op j o) as [j1 r] eqn:E1. destruct (run j1 ops) as [j2 rs2] eqn:E2. injection E as <- <-.
      destruct o as [e|t|a b]; cbn in E1.
      + injection E1 as <- <-. destruct (IH _ _ E2) as (H1 & H2 & H3 & H4 & H5); [cbn; rewrite app_length; cbn; lia|]. cbn in *. rewrite <- app_assoc in H1. auto.
      + unfold get_next in E1. destruct (nth_error (j_entries j) (j_idx j)) as [e|] eqn:En.
        * destruct (check_template t e) as [[]|x] eqn:Ec; injection E1 as <- <-.
          -- pose proof (nth_error_Some (j_entries j) (j_idx j)) as Hs. rewrite En in Hs. assert (Hs' : j_idx j < length (j_entries j)) by (apply Hs; discriminate).
             destruct (IH _ _ E2) as (H1 & H2 & H3 & H4 & H5); [cbn; lia|]. change (read ([Ok e] ++ rs2)) with (e :: read rs2). cbn [j_entries j_idx j_nodes appended nodes flat_map app length firstn] in *. split; [exact H1|]. split; [exact H2|]. split; [lia|]. split; [exact H4|].
             assert (Es : skipn (j_idx j) (j_entries j2) = e :: skipn (j_idx j + 1) (j_entries j2)).
             { assert (En2 : nth_error (j_entries j2) (j_idx j) = Some e) by (rewrite H1, nth_error_app1; assumption). clear - En2. rewrite Nat.add_1_r. revert En2. generalize (j_entries j2) as l. induction (j_idx j) as [|k IHk]; intros [|z l] H; try discriminate; cbn in *; [congruence|apply IHk, H]. }
             rewrite Es. f_equal. exact H5.
          -- destruct (IH _ _ E2 Hi) as (H1 & H2 & H3 & H4 & H5). cbn. auto.
        * injection E1 as <- <-. destruct (IH _ _ E2 Hi) as (H1 & H2 & H3 & H4 & H5). cbn. auto.
      + injection E1 as <- <-. destruct (IH _ _ E2 Hi) as (H1 & H2 & H3 & H4 & H5). cbn in *. rewrite <- app_assoc in H2. auto.
  Qed.
  Lemma run_new ops j rs : run new_journal ops = (j, rs) ->
    j_entries j = appended ops /\ j_nodes j = nodes ops /\ j_idx j = length (read rs) /\ length (read rs) <= length (appended ops) /\ read rs = firstn (length (read rs)) (appended ops).
  Proof. intros E. destruct (run_inv ops _ _ _ E (le_n 0)) as (H1 & H2 & H3 & H4 & H5). cbn in *. rewrite H1, H3 in *. auto. Qed.
  Lemma run_appends (es : list (@entry V)) : exists j, run new_journal (map Append es) = (j, []) /\ j_entries j = es /\ j_idx j = 0.
  Proof.
    destruct (run new_journal (map (@Append V) es)) as [j rs] eqn:E. destruct (run_new _ _ _ E) as (H1 & _ & H3 & _). assert (R : forall l j0 j1 r, run j0 (map (@Append V) l) = (j1, r) -> r = []).
    { induction l as [|e l IH]; intros j0 j1 r H; cbn in H; [congruence|]. destruct (run _ (map Append l)) as [j2 r2] eqn:E2. injection H as _ <-. eapply IH, E2. }
    rewrite (R _ _ _ _ E) in *. exists j. split; [reflexivity|]. split; [|exact H3]. rewrite H1. unfold appended. clear. induction es as [|e es IH]; cbn; [reflexivity|now rewrite IH].
  Qed.
  Lemma run_reads ts es extra j : Forall2 fits ts es -> skipn (j_idx j) (j_entries j) = es ++ extra ->
    exists j1, run j (map Next ts) = (j1, map Ok es) /\ j_entries j1 = j_entries j /\ j_idx j1 = j_idx j + length es.
  Proof.
    intros F. revert j. induction F as [|t e ts es Hf _ IH]; intros j H; [exists j; cbn; rewrite Nat.add_0_r; auto|].
    assert (En : nth_error (j_entries j) (j_idx j) = Some e /\ skipn (j_idx j + 1) (j_entries j) = es ++ extra).
    { clear - H. rewrite Nat.add_1_r. revert H. generalize (j_entries j) as l. induction (j_idx j) as [|k IHk]; intros [|z l] H; try discriminate; cbn in *; [injection H as -> ->; auto|apply IHk, H]. }
    destruct En as [En Es]. cbn [map run do_op]. unfold get_next. rewrite En, (proj2 (check_iff t e) Hf). destruct (IH {| j_entries := j_entries j; j_idx := j_idx j + 1; j_nodes := j_nodes j |} Es) as (j1 & E & R1 & R2). rewrite E. exists j1. split; [reflexivity|]. split; [exact R1|]. rewrite R2. cbn. lia.
  Qed.
End J.
