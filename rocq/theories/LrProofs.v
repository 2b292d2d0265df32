From Coq Require Import Ascii String QArith Qabs Sorted Lqa.
From Verif Require Import Base ListLemmas PyDict PySort PySortProofs LrModel LrSpec.
Local Open Scope nat_scope. Local Open Scope list_scope.
Local Notation length := List.length.

Lemma Qlt_bool_iff a b : Qlt_bool a b = true <-> (a < b)%Q.
Proof. unfold Qlt_bool. rewrite negb_true_iff. destruct (Qle_bool b a) eqn:E; [apply Qle_bool_iff in E|]; split; intros H; try discriminate; try lra. 
  apply Qnot_le_lt. intros Hle. apply Qle_bool_iff in Hle. congruence. Qed.
Lemma Qlt_bool_false a b : Qlt_bool a b = false <-> (b <= a)%Q.
Proof. unfold Qlt_bool. rewrite negb_false_iff. apply Qle_bool_iff. Qed.

(** epochs *)
Lemma In_epochs_before d epoch e : In e (epochs_before d epoch) <-> In e (dkeys d) /\ (e < epoch)%Z.
Proof.
  unfold epochs_before. split; intros H.
  - apply (Permutation_in _ (stable_sort_perm _ _)) in H. apply filter_In in H. destruct H as [H1 H2]. apply Z.ltb_lt in H2. auto.
  - apply (Permutation_in _ (Permutation_sym (stable_sort_perm _ _))). apply filter_In. rewrite Z.ltb_lt. exact H.
Qed.
Lemma epochs_before_sorted d epoch : StronglySorted Z.le (epochs_before d epoch).
Proof. apply (stable_sort_sorted (fun e : Z => e)). Qed.
Lemma last_map_Some {A} (l : list A) : match last (map Some l) None with
  | Some x => exists l', l = l' ++ [x]
  | None => l = [] end.
Proof. destruct l as [|x l] using rev_ind; [reflexivity|]. rewrite map_app. cbn. rewrite last_last. eauto. Qed.
Lemma sorted_app_last (l : list Z) x : StronglySorted Z.le (l ++ [x]) -> forall y, In y (l ++ [x]) -> (y <= x)%Z.
Proof.
  induction l as [|a l IH]; intros H y Hy; [destruct Hy as [->|[]]; lia|]. cbn in *. apply StronglySorted_inv in H. destruct H as [H Hf]. destruct Hy as [<-|Hy]; [|auto].
  rewrite Forall_forall in Hf. apply Hf, in_or_app. right. now left.
Qed.
Lemma get_last_epoch_spec d epoch : match get_last_epoch d epoch with
  | Some e => last_before d epoch e
  | None => forall e, In e (dkeys d) -> (epoch <= e)%Z end.
Proof.
  unfold get_last_epoch. pose proof (last_map_Some (epochs_before d epoch)) as H. destruct (last _ None) as [e|].
  - destruct H as (l&E). pose proof (epochs_before_sorted d epoch) as Hs. rewrite E in Hs.
    assert (Hin : In e (epochs_before d epoch)) by (rewrite E; apply in_or_app; right; now left). apply In_epochs_before in Hin. destruct Hin as [H1 H2]. split; [exact H1|]. split; [exact H2|].
    intros e' H1' H2'. apply (sorted_app_last l e Hs). rewrite <- E. now apply In_epochs_before.
  - intros e He. destruct (Z.le_gt_cases epoch e); [assumption|]. assert (Hin : In e (epochs_before d epoch)) by (apply In_epochs_before; split; [exact He|lia]). rewrite H in Hin. destruct Hin.
Qed.
Lemma last_before_unique d epoch e e' : last_before d epoch e -> last_before d epoch e' -> e = e'.
Proof. intros (A&B&C) (A'&B'&C'). specialize (C e' A' B'). specialize (C' e A B). lia. Qed.
Lemma lr_of_key d e : In e (dkeys d) -> exists ed, dget d e = Some ed /\ lr_of d e = Some (d_lr ed).
Proof. intros H. apply dget_keys in H. unfold lr_of. destruct (dget d e) as [ed|]; [|congruence]. exists ed. auto. Qed.

Lemma previous_exists c epoch : exists lr, previous_lr c epoch lr.
Proof.
  pose proof (get_last_epoch_spec (c_data c) epoch) as H. destruct (get_last_epoch (c_data c) epoch) as [e|].
  - destruct (lr_of_key _ _ (proj1 H)) as (ed&E1&E2). exists (d_lr ed). left. eauto.
  - exists (c_default c). right. auto.
Qed.
Lemma previous_unique c epoch a b : previous_lr c epoch a -> previous_lr c epoch b -> a = b.
Proof.
  intros [(e&ed&H&E&->)|[H ->]] [(e'&ed'&H'&E'&->)|[H' ->]]; auto.
  - rewrite (last_before_unique _ _ _ _ H H') in E. congruence.
  - destruct H as (A&B&_). specialize (H' e A). lia.
  - destruct H' as (A&B&_). specialize (H e' A). lia.
Qed.
(** the expression that all classes start with *)
Definition prev_expr (c : control) (epoch : Z) : Q :=
  match get_last_epoch (c_data c) epoch with Some e => match lr_of (c_data c) e with Some lr => lr | None => c_default c end | None => c_default c end.
Lemma prev_expr_spec c epoch : previous_lr c epoch (prev_expr c epoch).
Proof.
  unfold prev_expr. pose proof (get_last_epoch_spec (c_data c) epoch) as H. destruct (get_last_epoch (c_data c) epoch) as [e|].
  - destruct (lr_of_key _ _ (proj1 H)) as (ed&E1&E2). rewrite E2. left. exists e, ed. auto.
  - right. auto.
Qed.

Definition clipped_decay (c : control) (lr : Q) : Q := let lr := calc_update lr (c_decay c) in if Qlt_bool lr (c_min c) then c_min c else lr.
Lemma clipped_decay_min c lr : (c_min c <= clipped_decay c lr)%Q.
Proof. unfold clipped_decay. destruct (Qlt_bool _ _) eqn:E; [lra|]. now apply Qlt_bool_false in E. Qed.
Lemma decay_or_grow_spec c lr decay grow r : decay_or_grow c lr decay grow = Ok r ->
  (decay = true /\ r = clipped_decay c lr) \/ (decay = false /\ (r = lr \/ r = calc_update lr (c_growth c))).
Proof.
  unfold decay_or_grow. destruct decay; destruct grow as [[|]|]; cbn; intros H; try discriminate; apply Ok_inj in H; subst r; auto.
Qed.
Definition one_of (c : control) (prev r : Q) : Prop :=
  r = prev \/ (c_kind c <> Constant /\ (r = clipped_decay c prev \/ r = calc_update prev (c_growth c))).
Lemma decay_or_grow_one_of c lr decay grow r : c_kind c <> Constant -> decay_or_grow c lr decay grow = Ok r -> one_of c lr r.
Proof. intros Hk H. apply decay_or_grow_spec in H. unfold one_of. intuition auto. Qed.

Lemma calc_lr_one_of c epoch r : calc_lr c epoch = Ok r -> one_of c (prev_expr c epoch) r.
Proof.
  unfold calc_lr. destruct (c_kind c) eqn:Ek.
  - intros H. apply Ok_inj in H. left. subst r. reflexivity.
  - assert (Hk : c_kind c <> Constant) by (rewrite Ek; discriminate). unfold prev_expr. destruct (get_last_epoch (c_data c) epoch) as [e|]; [|intros H; apply Ok_inj in H; now left].
    destruct (get_last_epoch (c_data c) e) as [e2|]; [|intros H; apply Ok_inj in H; now left]. intros H. apply bind_Ok in H. destruct H as ([r'|]&_&H); [|apply Ok_inj in H; now left].
    eapply decay_or_grow_one_of; eauto.
  - assert (Hk : c_kind c <> Constant) by (rewrite Ek; discriminate). unfold prev_expr. destruct (get_last_epoch (c_data c) epoch) as [e|]; [|intros H; apply Ok_inj in H; now left].
    destruct (get_last_epoch (c_data c) e) as [e2|]; [|intros H; apply Ok_inj in H; now left]. intros H. apply bind_Ok in H. destruct H as ([[k v]|]&_&H); apply bind_Ok in H; destruct H as ([[k' v']|]&_&H); try (apply Ok_inj in H; now left).
    destruct (negb _); [apply Ok_inj in H; now left|]. eapply decay_or_grow_one_of; eauto.
  - assert (Hk : c_kind c <> Constant) by (rewrite Ek; discriminate). change (get_most_recent_lr c epoch true) with (prev_expr c epoch).
    destruct (_ && _); [intros H; apply Ok_inj in H; now left|]. intros H. apply bind_Ok in H. destruct H as ([r'|]&_&H); [|apply Ok_inj in H; now left]. eapply decay_or_grow_one_of; eauto.
Qed.

(** the minimal number of epochs *)
Lemma lrs_of_keys d es : (forall e, In e es -> In e (dkeys d)) -> length (lrs_of d es) = length es /\ Forall2 (fun e lr => lr_of d e = Some lr) es (lrs_of d es).
Proof.
  induction es as [|e es IH]; intros H; [split; [reflexivity|constructor]|]. destruct (lr_of_key d e (H e (or_introl eq_refl))) as (ed&E1&E2). destruct IH as [A B]; [intros; apply H; now right|].
  unfold lrs_of in *. cbn. rewrite E2. cbn. split; [now f_equal|]. constructor; assumption.
Qed.
Lemma In_last_n {A} n (l : list A) x : In x (last_n n l) -> In x l.
Proof. unfold last_n. destruct n; [auto|]. intros H. rewrite <- (firstn_skipn (length l - S n) l). apply in_or_app. now right. Qed.
Lemma last_n_app {A} n (l : list A) x : last_n (S n) (l ++ [x]) = skipn (length l - n) l ++ [x].
Proof.
  unfold last_n. rewrite app_length. cbn [length]. replace (length l + 1 - S n) with (length l - n) by lia. rewrite skipn_app.
  replace (length l - n - length l) with 0 by lia. reflexivity.
Qed.
Lemma last_n_length {A} n (l : list A) : length (last_n (S n) l) = Nat.min (S n) (length l).
Proof. unfold last_n. rewrite skipn_length. lia. Qed.
Lemma lrs_of_app d a b : lrs_of d (a ++ b) = lrs_of d a ++ lrs_of d b.
Proof. unfold lrs_of. now rewrite flat_map_app. Qed.
Lemma has_different_false l : has_different l = false -> forall x y, In x l -> In y l -> (x == y)%Q.
Proof.
  unfold has_different. destruct l as [|a l]; [intros _ x y []|]. intros H.
  assert (Ha : forall x, In x (a :: l) -> (a == x)%Q).
  { intros x [<-|Hx]; [reflexivity|]. apply Qeq_bool_iff. destruct (Qeq_bool a x) eqn:E; [reflexivity|]. exfalso.
    assert (existsb (fun y => negb (Qeq_bool a y)) l = true); [|congruence]. apply existsb_exists. exists x. rewrite E. auto. }
  intros x y Hx Hy. rewrite <- (Ha x Hx). apply Ha, Hy.
Qed.
Lemma calc_new_lr_spec c epoch r : calc_new_lr c epoch = Ok r ->
  (r = prev_expr c epoch) \/
  (calc_lr c epoch = Ok r /\ (1 < c_min_num c ->
     let es := last_epochs_for_epoch (c_data c) epoch (c_min_num c) in
     (es = [] \/ length es = c_min_num c) /\
     forall e e' lr lr', In e es -> In e' es -> lr_of (c_data c) e = Some lr -> lr_of (c_data c) e' = Some lr' -> (lr == lr')%Q)).
Proof.
  unfold calc_new_lr. set (es := last_epochs_for_epoch (c_data c) epoch (c_min_num c)).
  assert (Hk : forall e, In e es -> In e (dkeys (c_data c))) by (intros e He; apply In_last_n, In_epochs_before in He; tauto).
  destruct (lrs_of_keys (c_data c) es Hk) as [Hl HF].
  destruct (Nat.ltb_spec 1 (c_min_num c)) as [H1|H1]; cbn [andb]; [|intros H; right; split; [exact H|lia]].
  destruct (has_different (lrs_of (c_data c) es)) eqn:Ed; cbn [orb].
  - intros H. apply Ok_inj in H. left. subst r.
    assert (Hne : lrs_of (c_data c) es <> []) by (intros E; now rewrite E in Ed).
    unfold prev_expr, get_last_epoch. unfold es, last_epochs_for_epoch in *. destruct (epochs_before (c_data c) epoch) as [|e eb _] using rev_ind.
    { exfalso. apply Hne. unfold last_n. destruct (c_min_num c); [reflexivity|now rewrite skipn_nil]. }
    rewrite map_app. cbn [map]. rewrite last_last. destruct (c_min_num c) as [|n] eqn:En; [lia|]. rewrite last_n_app in *. rewrite lrs_of_app.
    destruct (lr_of_key (c_data c) e) as (ed&_&E); [apply Hk, in_or_app; right; now left|]. rewrite E. unfold lrs_of at 2. cbn. rewrite E. cbn. apply last_last.
  - destruct (Nat.ltb_spec 0 (length (lrs_of (c_data c) es))) as [H0|H0]; cbn [andb].
    + destruct (Nat.ltb_spec (length (lrs_of (c_data c) es)) (c_min_num c)) as [H2|H2].
      * intros H. apply Ok_inj in H. left. subst r.
        unfold prev_expr, get_last_epoch. unfold es, last_epochs_for_epoch in *. destruct (epochs_before (c_data c) epoch) as [|e eb _] using rev_ind.
        { exfalso. revert H0. unfold last_n. destruct (c_min_num c); [cbn; lia|rewrite skipn_nil; cbn; lia]. }
        rewrite map_app. cbn [map]. rewrite last_last. destruct (c_min_num c) as [|n] eqn:En; [lia|]. rewrite last_n_app in *. rewrite lrs_of_app.
        destruct (lr_of_key (c_data c) e) as (ed&_&E); [apply Hk, in_or_app; right; now left|]. rewrite E. unfold lrs_of at 2. cbn. rewrite E. cbn. apply last_last.
      * intros H. right. split; [exact H|]. intros _. cbv zeta. fold es. split.
        -- right. rewrite Hl in H2. unfold es, last_epochs_for_epoch in *. destruct (c_min_num c) as [|n] eqn:En; [lia|]. rewrite last_n_length in *. lia.
        -- intros e e' lr lr' He He' E E'. apply (has_different_false _ Ed).
           ++ unfold lrs_of. apply in_flat_map. exists e. rewrite E. cbn. auto.
           ++ unfold lrs_of. apply in_flat_map. exists e'. rewrite E'. cbn. auto.
    + intros H. right. split; [exact H|]. intros _. cbv zeta. fold es. split; [left; destruct es; [reflexivity|cbn [length] in Hl; lia]|].
      destruct es; [intros e e' lr lr' []|cbn [length] in Hl; lia].
Qed.
Lemma calc_new_lr_one_of c epoch r : calc_new_lr c epoch = Ok r -> one_of c (prev_expr c epoch) r.
Proof. intros H. apply calc_new_lr_spec in H. destruct H as [->|[H _]]; [now left|now apply calc_lr_one_of]. Qed.

Lemma get_lr_spec c epoch lr c' : get_lr c epoch = Ok (lr, c') -> (1 <= epoch)%Z /\
  ((exists ed, dget (c_data c) epoch = Some ed /\ lr = d_lr ed /\ c' = c) \/
   (dget (c_data c) epoch = None /\ calc_new_lr c epoch = Ok lr /\ c' = with_data c (dset (c_data c) epoch (mk_data lr [])))).
Proof.
  unfold get_lr. intros H. apply bind_Ok in H. destruct H as (u&Ha&H). apply assert_Ok, Z.leb_le in Ha. split; [exact Ha|].
  unfold lr_of in H. destruct (dget (c_data c) epoch) as [ed|] eqn:E; cbn in H.
  - apply Ok_inj in H. injection H as <- <-. left. eauto.
  - apply bind_Ok in H. destruct H as (lr'&H1&H). apply Ok_inj in H. injection H as <- <-. right. unfold set_default_lr. rewrite E. auto.
Qed.

(** invariants of a training *)
Definition all_lrs (P : Q -> Prop) (d : dict Z epoch_data) : Prop := forall e ed, dget d e = Some ed -> P (d_lr ed).
Definition same_opts (c c' : control) : Prop := c' = with_data c (c_data c').
Lemma same_opts_refl c : same_opts c c.
Proof. destruct c. reflexivity. Qed.
Lemma same_opts_trans a b c : same_opts a b -> same_opts b c -> same_opts a c.
Proof. unfold same_opts. intros -> H. rewrite H. reflexivity. Qed.
Lemma same_opts_with c c' d : same_opts c c' -> same_opts c (with_data c' d).
Proof. unfold same_opts. intros ->. reflexivity. Qed.
Lemma one_of_same c c' p r : same_opts c c' -> one_of c' p r -> one_of c p r.
Proof. unfold same_opts. intros ->. auto. Qed.

Section Inv.
  Context (P : Q -> Prop) (c0 : control) (Hdef : P (c_default c0)) (Hstep : forall p r, P p -> one_of c0 p r -> P r).
  Lemma get_lr_inv c epoch lr c' : same_opts c0 c -> all_lrs P (c_data c) -> get_lr c epoch = Ok (lr, c') -> P lr /\ same_opts c0 c' /\ all_lrs P (c_data c').
  Proof.
    intros Hs Ha H. apply get_lr_spec in H. destruct H as [_ [(ed&E&->&->)|(E&H&->)]]; [repeat split; auto; exact (Ha _ _ E)|].
    assert (Hp : P lr).
    { apply calc_new_lr_one_of in H. apply (one_of_same _ _ _ _ Hs) in H. revert H. apply Hstep.
      destruct (prev_expr_spec c epoch) as [(e&ed&_&Ee&->)|[_ ->]]; [exact (Ha _ _ Ee)|]. rewrite Hs. exact Hdef. }
    split; [exact Hp|]. split; [now apply same_opts_with|]. intros e ed. cbn [c_data with_data]. rewrite dget_dset. destruct (keqb epoch e); [|apply Ha]. intros E'. injection E' as <-. exact Hp.
  Qed.
  Lemma exec_inv c o c' : same_opts c0 c -> all_lrs P (c_data c) -> exec c o = Ok c' -> same_opts c0 c' /\ all_lrs P (c_data c').
  Proof.
    intros Hs Ha H. destruct o as [e|e s]; cbn in H.
    - apply bind_Ok in H. destruct H as ([lr c1]&H1&H). apply Ok_inj in H. subst c'. now apply get_lr_inv in H1.
    - unfold set_epoch_error in H. apply bind_Ok in H. destruct H as (c1&H1&H).
      assert (H2 : same_opts c0 c1 /\ all_lrs P (c_data c1)).
      { destruct (dget (c_data c) e); [apply Ok_inj in H1; subst; auto|]. apply bind_Ok in H1. destruct H1 as ([lr c2]&H1&H2). apply Ok_inj in H2. subst c1. now apply get_lr_inv in H1. }
      destruct H2 as [Hs1 Ha1]. destruct (dget (c_data c1) e) as [ed|] eqn:E; [|discriminate]. apply Ok_inj in H. subst c'. split; [now apply same_opts_with|].
      intros e' ed'. cbn [c_data with_data]. rewrite dget_dset. destruct (keqb e e'); [|apply Ha1]. intros E'. injection E' as <-. cbn. exact (Ha1 _ _ E).
  Qed.
  Lemma run_inv ops : forall c c', same_opts c0 c -> all_lrs P (c_data c) -> run c ops = Ok c' -> same_opts c0 c' /\ all_lrs P (c_data c').
  Proof.
    induction ops as [|o ops IH]; intros c c' Hs Ha H; cbn in H; [apply Ok_inj in H; subst; auto|]. apply bind_Ok in H. destruct H as (c1&H1&H).
    apply exec_inv in H1; auto. destruct H1. eapply IH; eauto.
  Qed.
  Lemma init_inv c rates : (forall ev, In ev rates -> P (snd ev)) -> all_lrs P (c_data (init c rates)).
  Proof.
    intros H. unfold init. cbn [c_data with_data]. enough (G : forall d, all_lrs P d -> all_lrs P (fold_left (fun d ev => set_default_lr d (fst ev) (snd ev)) rates d)) by (apply G; intros e ed; discriminate).
    induction rates as [|ev rates IH]; intros d Hd; [exact Hd|]. cbn. apply IH; [intros; apply H; now right|]. unfold set_default_lr.
    assert (Hev : P (snd ev)) by (apply H; now left).
    destruct (dget d (fst ev)) as [ed|] eqn:E; [destruct (Qeq_bool _ _); [|exact Hd]|]; intros e ed'; rewrite dget_dset; destruct (keqb (fst ev) e); try apply Hd; intros E'; injection E' as <-; exact Hev.
  Qed.
End Inv.
Lemma init_opts c rates : same_opts c (init c rates).
Proof. reflexivity. Qed.

(** best epoch *)
Lemma In_zrange a b x : In x (zrange a b) <-> (a <= x < b)%Z.
Proof.
  unfold zrange. rewrite in_map_iff. split.
  - intros (i&<-&Hi). apply in_seq in Hi. lia.
  - intros H. exists (Z.to_nat (x - a)). rewrite in_seq. lia.
Qed.
Lemma zrange_sorted a b : StronglySorted Z.lt (zrange a b).
Proof.
  unfold zrange. generalize (Z.to_nat (b - a)) as n. intros n. generalize 0%nat as s. induction n as [|n IH]; intros s; cbn; [constructor|]. constructor; [apply IH|].
  apply Forall_forall. intros x Hx. apply in_map_iff in Hx. destruct Hx as (i&<-&Hi). apply in_seq in Hi. lia.
Qed.

Lemma pair_lt_false a b : pair_lt a b = false -> (fst b < fst a)%Q \/ (fst a == fst b)%Q /\ (snd b <= snd a)%Z.
Proof.
  unfold pair_lt. rewrite orb_false_iff, andb_false_iff. intros [H1 H2]. apply Qlt_bool_false in H1. destruct H2 as [H2|H2].
  - left. apply Qle_lteq in H1. destruct H1 as [H1|H1]; [exact H1|]. symmetry in H1. apply Qeq_bool_iff in H1. congruence.
  - apply Z.ltb_ge in H2. apply Qle_lteq in H1. destruct H1 as [H1|H1]; [now left|right]. split; [symmetry; exact H1|lia].
Qed.
Lemma pair_lt_true a b : pair_lt a b = true -> (fst a < fst b)%Q \/ (fst a == fst b)%Q /\ (snd a < snd b)%Z.
Proof. unfold pair_lt. rewrite orb_true_iff, andb_true_iff, Qlt_bool_iff, Qeq_bool_iff, Z.ltb_lt. tauto. Qed.
Definition pair_le (a b : Q * Z) : Prop := (fst a < fst b)%Q \/ (fst a == fst b)%Q /\ (snd a <= snd b)%Z.
Lemma min_pair_spec l : forall x, In (min_pair x l) (x :: l) /\ forall y, In y (x :: l) -> pair_le (min_pair x l) y.
Proof.
  unfold min_pair. induction l as [|y l IH]; intros x; cbn [fold_left].
  - split; [now left|]. intros y [<-|[]]. right. split; [reflexivity|lia].
  - destruct (pair_lt y x) eqn:E.
    + destruct (IH y) as [A B]. split; [destruct A as [A|A]; [right; left; exact A|right; right; exact A]|]. intros z [<-|Hz]; [|apply B; exact Hz].
      specialize (B y (or_introl eq_refl)). apply pair_lt_true in E. unfold pair_le in *. destruct B as [B|[B B']], E as [E|[E E']]; [left; lra|left; lra|left; lra|right; split; [lra|lia]].
    + destruct (IH x) as [A B]. split; [destruct A as [A|A]; [left; exact A|right; right; exact A]|]. intros z [<-|[<-|Hz]]; [apply B; now left| |apply B; now right].
      specialize (B x (or_introl eq_refl)). apply pair_lt_false in E. unfold pair_le in *. destruct B as [B|[B B']], E as [E|[E E']]; [left; lra|left; lra|left; lra|right; split; [lra|lia]].
Qed.

(** the list of (key, value, epoch) *)
Definition trip := (string * Q * Z)%type.
Definition scores_in (c : control) (first last : Z) (vs : list trip) : Prop :=
  StronglySorted (fun a b => (snd a < snd b)%Z) vs /\ forall k v ep, In (k, v, ep) vs <-> (first <= ep <= last)%Z /\ scored c ep k v.

Lemma collect_spec c eps vals : StronglySorted Z.lt eps -> mapM (fun ep => let* kv := error_key_value c ep in Ok (kv, ep)) eps = Ok vals ->
  let vs := flat_map (fun x => match fst x with Some (k, v) => [(k, v, snd x)] | None => [] end) vals : list trip in
  StronglySorted (fun a b => (snd a < snd b)%Z) vs /\ (forall k v ep, In (k, v, ep) vs <-> In ep eps /\ scored c ep k v) /\
  (forall ep, In ep eps -> exists kv, error_key_value c ep = Ok kv).
Proof.
  cbv zeta. intros Hs. revert vals. induction eps as [|ep eps IH]; intros vals H.
  - cbn in H. apply Ok_inj in H. subst. cbn. split; [constructor|]. split; [tauto|intros ep []].
  - apply StronglySorted_inv in Hs. destruct Hs as [Hs Hf]. rewrite Forall_forall in Hf. cbn in H. apply bind_Ok in H. destruct H as (x&Hx&H). apply bind_Ok in H. destruct H as (xs&Hxs&H). apply Ok_inj in H. subst vals.
    apply bind_Ok in Hx. destruct Hx as (kv&Hkv&Hx). apply Ok_inj in Hx. subst x. destruct (IH Hs xs Hxs) as (A&B&C). cbn [flat_map fst snd].
    split; [|split].
    + destruct kv as [[k v]|]; [|exact A]. cbn. constructor; [exact A|]. apply Forall_forall. intros [[k' v'] ep'] Hin. apply B in Hin. cbn. apply Hf, Hin.
    + intros k v ep'. rewrite in_app_iff, B. unfold scored. destruct kv as [[k0 v0]|]; cbn; split.
      * intros [[E|[]]|[H1 H2]]; [injection E as <- <- <-; auto|auto].
      * intros [[<-|H1] H2]; [left; left; congruence|auto].
      * intros [[]|[H1 H2]]; auto.
      * intros [[<-|H1] H2]; [congruence|auto].
    + intros ep' [<-|H']; [eauto|auto].
Qed.

Lemma sorted_map_filter {A B} (R : B -> B -> Prop) (f : A -> B) (g : A -> bool) l :
  StronglySorted (fun a b => R (f a) (f b)) l -> StronglySorted (fun a b => R (f a) (f b)) (filter g l).
Proof.
  induction l as [|a l IH]; intros H; [constructor|]. apply StronglySorted_inv in H. destruct H as [H Hf]. cbn. destruct (g a); [|auto]. constructor; [auto|].
  apply Forall_forall. intros x Hx. apply filter_In in Hx. rewrite Forall_forall in Hf. apply Hf, Hx.
Qed.
Lemma sorted_map {A B} (R : B -> B -> Prop) (f : A -> B) l : StronglySorted (fun a b => R (f a) (f b)) l -> StronglySorted R (map f l).
Proof.
  induction l as [|a l IH]; intros H; [constructor|]. apply StronglySorted_inv in H. destruct H as [H Hf]. cbn. constructor; [auto|]. apply Forall_forall. intros x Hx. apply in_map_iff in Hx. destruct Hx as (y&<-&Hy).
  rewrite Forall_forall in Hf. now apply Hf.
Qed.
Lemma sorted_app_split {A} (R : A -> A -> Prop) l1 x l2 : StronglySorted R (l1 ++ x :: l2) -> (forall y, In y l1 -> R y x) /\ (forall y, In y l2 -> R x y).
Proof.
  induction l1 as [|a l1 IH]; cbn; intros H; apply StronglySorted_inv in H; destruct H as [H Hf]; rewrite Forall_forall in Hf.
  - split; [intros y []|exact Hf].
  - destruct (IH H) as [A1 A2]. split; [|exact A2]. intros y [<-|Hy]; [apply Hf, in_or_app; right; now left|auto].
Qed.
Lemma sorted_NoDup (l : list (Q * Z)) : StronglySorted (fun a b => (snd a < snd b)%Z) l -> NoDup (map snd l).
Proof.
  induction l as [|a l IH]; intros H; [constructor|]. apply StronglySorted_inv in H. destruct H as [H Hf]. cbn. constructor; [|auto]. intros Hin. apply in_map_iff in Hin. destruct Hin as (y&E&Hy). rewrite Forall_forall in Hf. specialize (Hf y Hy). lia.
Qed.
(** membership in the last n of a sorted list *)
Lemma In_last_n_iff (l1 l2 : list (Q * Z)) x n : 1 <= n -> In x (last_n n (l1 ++ x :: l2)) \/ n <= length l2.
Proof.
  intros Hn. destruct (Nat.le_gt_cases n (length l2)) as [|Hgt]; [auto|left]. unfold last_n. destruct n as [|n]; [lia|]. rewrite app_length. cbn [length].
  rewrite skipn_app. apply in_or_app. right. replace (length l1 + S (length l2) - S n - length l1) with 0 by lia. now left.
Qed.
Lemma last_n_suffix {A} n (l : list A) x : 1 <= n -> In x (last_n n l) -> exists l1 l2, l = l1 ++ x :: l2 /\ length l2 < n.
Proof.
  intros Hn H. unfold last_n in H. destruct n as [|n]; [lia|]. apply in_split in H. destruct H as (a&b&E). exists (firstn (length l - S n) l ++ a), b. split.
  - rewrite <- app_assoc, <- E. symmetry. apply firstn_skipn.
  - apply (f_equal (@length _)) in E. rewrite skipn_length, app_length in E. cbn in E. lia.
Qed.

Lemma best_spec c last first only_last filter_score n dist r :
  let first' := first_considered last first only_last in
  get_last_best_epoch c last first only_last filter_score n dist = Ok r ->
  match r with
  | Some ep => exists key lep lv v, latest c first' last lep key lv /\ candidate c first' last key filter_score ep v /\ among_last c first' last key filter_score n ep /\ (v + dist < lv)%Q /\
      forall ep' v', candidate c first' last key filter_score ep' v' -> among_last c first' last key filter_score n ep' -> (v < v')%Q \/ (v == v')%Q /\ (ep <= ep')%Z
  | None => forall key lep lv ep v, latest c first' last lep key lv -> candidate c first' last key filter_score ep v -> among_last c first' last key filter_score n ep -> (lv <= v + dist)%Q
  end.
Proof.
  cbv zeta. unfold get_last_best_epoch. change (match only_last with Some n0 => if (n0 =? 0)%Z then first else Z.max first (last - n0 + 1) | None => first end) with (first_considered last first only_last).
  set (first' := first_considered last first only_last).
  destruct (Z.ltb_spec last first') as [Hlt|Hle].
  { intros H. apply Ok_inj in H. subst r. intros key lep lv ep v (?&_) _ _. lia. }
  intros H. apply bind_Ok in H. destruct H as (vals&Hv&H). destruct (collect_spec c _ vals (zrange_sorted _ _) Hv) as (Hs&Hin&Hdef). cbv zeta in *.
  set (vs := flat_map (fun x : option (string * Q) * Z => match fst x with Some (k, v) => [(k, v, snd x)] | None => [] end) vals) in *. clearbody vs. clear Hv vals.
  assert (Hin' : forall k v ep, In (k, v, ep) vs <-> (first' <= ep <= last)%Z /\ scored c ep k v) by (intros; rewrite Hin, In_zrange; intuition lia).
  pose proof (last_map_Some vs) as Hlast. destruct (List.last (map Some vs) None) as [[[lk lv] lep]|] eqn:El.
  2:{ apply Ok_inj in H. subst r. intros key lep lv ep v (?&Hsc&_) _ _. assert (Hx : In (key, lv, lep) vs) by (apply Hin'; auto). rewrite Hlast in Hx. destruct Hx. }
  destruct Hlast as (vs0&Evs).
  assert (Hlat : latest c first' last lep lk lv).
  { assert (Hx : In (lk, lv, lep) vs) by (rewrite Evs; apply in_or_app; right; now left). apply Hin' in Hx. destruct Hx as [H1 H2]. split; [exact H1|]. split; [exact H2|]. intros ep' Hep.
    destruct (Hdef ep') as ([[k v]|]&E); [apply In_zrange; lia| |exact E]. exfalso. assert (Hx : In (k, v, ep') vs) by (apply Hin'; split; [lia|exact E]).
    rewrite Evs in Hs, Hx. apply sorted_app_split in Hs. apply in_app_or in Hx. destruct Hx as [Hx|[Hx|[]]]; [apply Hs in Hx; cbn in Hx; lia|injection Hx as <- <- <-; lia]. }
  assert (Hlatu : forall k e v, latest c first' last e k v -> k = lk /\ v = lv).
  { intros k e v (A1&A2&A3). destruct Hlat as (B1&B2&B3). destruct (Z.lt_trichotomy e lep) as [Hx|[->|Hx]].
    - specialize (A3 lep ltac:(lia)). unfold scored in B2. congruence.
    - unfold scored in *. rewrite A2 in B2. injection B2 as <- <-. auto.
    - specialize (B3 e ltac:(lia)). unfold scored in A2. congruence. }
  cbv zeta in H. set (cs := filter (fun x => match filter_score with Some s => Qle_bool (fst x) s | None => true end) (map (fun x => let '(k, v, ep) := x in (v, ep)) (filter (fun x => let '(k, v, _) := x in String.eqb k lk) vs))) in *.
  assert (Hcs : forall v ep, In (v, ep) cs <-> candidate c first' last lk filter_score ep v).
  { intros v ep. unfold cs, candidate. rewrite filter_In, in_map_iff. cbn [fst]. split.
    - intros [([[k v0] ep0]&E&Hx) Hf]. injection E as -> ->. apply filter_In in Hx. destruct Hx as [Hx Hk]. apply String.eqb_eq in Hk. subst k. apply Hin' in Hx. destruct Hx. split; [auto|]. split; [auto|].
      destruct filter_score; [now apply Qle_bool_iff|exact I].
    - intros (H1&H2&H3). split.
      + exists (lk, v, ep). split; [reflexivity|]. apply filter_In. split; [apply Hin'; auto|apply String.eqb_refl].
      + destruct filter_score; [now apply Qle_bool_iff|reflexivity]. }
  assert (Hcss : StronglySorted (fun a b => (snd a < snd b)%Z) cs).
  { unfold cs. apply (sorted_map_filter Z.lt snd). apply (sorted_map (fun a b : Q * Z => (snd a < snd b)%Z)).
    assert (Hs' : StronglySorted (fun a b : trip => (snd a < snd b)%Z) (filter (fun x => let '(k, v, _) := x in String.eqb k lk) vs)) by (apply (sorted_map_filter Z.lt snd), Hs).
    revert Hs'. clear. generalize (filter (fun x : string * Q * Z => let '(k, v, _) := x in String.eqb k lk) vs). intros l. induction l as [|a l IH]; intros H; [constructor|]. apply StronglySorted_inv in H. destruct H as [H Hf].
    constructor; [auto|]. eapply Forall_impl; [|exact Hf]. intros [[? ?] ?] Hx. destruct a as [[? ?] ?]. exact Hx. }
  clearbody cs.
  set (ls := if (1 <=? n)%Z then last_n (Z.to_nat n) cs else cs) in *.
  assert (Hls : forall v ep, In (v, ep) ls <-> candidate c first' last lk filter_score ep v /\ among_last c first' last lk filter_score n ep).
  { intros v ep. unfold ls, among_last. destruct (Z.leb_spec 1 n) as [Hn|Hn].
    - split.
      + intros Hx. split; [apply Hcs; now apply In_last_n in Hx|]. right. apply last_n_suffix in Hx; [|lia]. destruct Hx as (l1&l2&E&Hl). exists (map snd l2).
        pose proof (sorted_NoDup _ Hcss) as Hnd. rewrite E in Hcss, Hnd. rewrite map_app in Hnd. cbn in Hnd. apply NoDup_app_r in Hnd. apply NoDup_cons_iff in Hnd. split; [apply Hnd|]. split; [rewrite map_length; lia|].
        intros ep' v' Hlt Hc. apply Hcs in Hc. rewrite E in Hc. apply sorted_app_split in Hcss. apply in_app_or in Hc. destruct Hc as [Hc|[Hc|Hc]].
        * apply Hcss in Hc. cbn in Hc. lia.
        * injection Hc as -> ->. lia.
        * change ep' with (snd (v', ep')). now apply in_map.
      + intros [Hc [Hx|(later&Hnd&Hl&Hall)]]; [lia|]. apply Hcs in Hc. apply in_split in Hc. destruct Hc as (l1&l2&E). rewrite E.
        destruct (In_last_n_iff l1 l2 (v, ep) (Z.to_nat n) ltac:(lia)) as [|Hbig]; [assumption|]. exfalso.
        pose proof (sorted_NoDup _ Hcss) as Hnd'. rewrite E, map_app in Hnd'. cbn in Hnd'. apply NoDup_app_r in Hnd'. apply NoDup_cons_iff in Hnd'.
        assert (Hincl : incl (map snd l2) later).
        { intros ep' Hep'. apply in_map_iff in Hep'. destruct Hep' as ([v' ep'']&<-&Hy). cbn. apply (Hall ep'' v').
          - rewrite E in Hcss. apply sorted_app_split in Hcss. apply Hcss in Hy. exact Hy.
          - apply Hcs. rewrite E. apply in_or_app. right. now right. }
        apply NoDup_incl_length in Hincl; [|apply Hnd']. rewrite map_length in Hincl. lia.
    - rewrite Hcs. split; [|tauto]. intros Hx. split; [exact Hx|]. left. lia. }
  clearbody ls.
  destruct (filter (fun x => Qlt_bool (fst x + dist) lv) ls) as [|x l] eqn:Ef; apply Ok_inj in H; subst r.
  - intros key lep' lv' ep v Hl Hc Ha. destruct (Hlatu _ _ _ Hl) as [-> ->]. apply Qlt_bool_false. destruct (Qlt_bool (v + dist) lv) eqn:E; [|reflexivity]. exfalso.
    assert (Hx : In (v, ep) (filter (fun x => Qlt_bool (fst x + dist) lv) ls)) by (apply filter_In; split; [apply Hls; auto|exact E]). rewrite Ef in Hx. destruct Hx.
  - destruct (min_pair_spec l x) as [A B]. rewrite <- Ef in A. apply filter_In in A. destruct A as [A1 A2]. apply Qlt_bool_iff in A2.
    destruct (min_pair x l) as [v ep] eqn:Em. cbn [fst snd] in *. apply Hls in A1. exists lk, lep, lv, v. split; [exact Hlat|]. split; [apply A1|]. split; [apply A1|]. split; [exact A2|].
    intros ep' v' Hc Ha. destruct (Qlt_bool (v' + dist) lv) eqn:E.
    + assert (Hx : In (v', ep') (x :: l)) by (rewrite <- Ef; apply filter_In; split; [apply Hls; auto|exact E]). specialize (B _ Hx). exact B.
    + apply Qlt_bool_false in E. left. lra.
Qed.

(** decisions *)
Lemma sorted_lt_NoDup l : StronglySorted Z.lt l -> NoDup l.
Proof.
  induction 1 as [|x l H IH Hf]; constructor; auto. intros Hin. rewrite Forall_forall in Hf. specialize (Hf x Hin). lia.
Qed.
Lemma sorted_le_lt l : StronglySorted Z.le l -> NoDup l -> StronglySorted Z.lt l.
Proof.
  induction 1 as [|x l H IH Hf]; intros Hn; constructor; inversion Hn; subst; auto.
  rewrite Forall_forall in *. intros y Hy. specialize (Hf y Hy). assert (x <> y) by (intros ->; contradiction). lia.
Qed.
Lemma sorted_lt_ext l : forall l', StronglySorted Z.lt l -> StronglySorted Z.lt l' -> (forall x, In x l <-> In x l') -> l = l'.
Proof.
  induction l as [|x l IH]; intros [|y l'] H H' E.
  - reflexivity.
  - destruct (proj2 (E y)); now left.
  - destruct (proj1 (E x)); now left.
  - apply StronglySorted_inv in H. destruct H as [H Hf]. apply StronglySorted_inv in H'. destruct H' as [H' Hf'].
    rewrite Forall_forall in *.
    assert (x = y).
    { destruct (proj1 (E x) (or_introl eq_refl)) as [->|G]; [reflexivity|]. destruct (proj2 (E y) (or_introl eq_refl)) as [->|G2]; [reflexivity|].
      specialize (Hf _ G2). specialize (Hf' _ G). lia. }
    subst y. f_equal. apply IH; auto. intros z. split; intros Hz.
    + destruct (proj1 (E z) (or_intror Hz)) as [->|G]; auto. specialize (Hf _ Hz). lia.
    + destruct (proj2 (E z) (or_intror Hz)) as [->|G]; auto. specialize (Hf' _ Hz). lia.
Qed.
Lemma recent_sub d epoch n es es' : recent_epochs d epoch n es -> recent_epochs d epoch n es' -> forall e, In e es -> In e es'.
Proof.
  intros (S1&L1&I1&R1) (S2&L2&I2&R2) e He. destruct (in_dec Z.eq_dec e es') as [|Hn]; [assumption|exfalso].
  destruct (I1 e He) as [K B]. destruct (R2 e K B Hn) as [Len Low].
  assert (Hsub : incl es' es).
  { intros x Hx. destruct (in_dec Z.eq_dec x es) as [|Hxn]; [assumption|exfalso]. destruct (I2 x Hx) as [Kx Bx].
    destruct (R1 x Kx Bx Hxn) as [_ G]. specialize (G e He). specialize (Low x Hx). lia. }
  assert (length (e :: es') <= length es).
  { apply NoDup_incl_length; [constructor; [exact Hn|now apply sorted_lt_NoDup]|]. intros x [<-|Hx]; auto. }
  cbn in H. lia.
Qed.
Lemma recent_unique d epoch n es es' : recent_epochs d epoch n es -> recent_epochs d epoch n es' -> es = es'.
Proof. intros H H'. apply sorted_lt_ext; [apply H|apply H'|]. intros x. split; eapply recent_sub; eauto. Qed.
Lemma recent_last_n d epoch n : NoDup (dkeys d) -> 1 <= n -> recent_epochs d epoch n (last_n n (epochs_before d epoch)).
Proof.
  intros Hnd Hn. assert (Hs : StronglySorted Z.lt (epochs_before d epoch)).
  { apply sorted_le_lt; [apply epochs_before_sorted|]. unfold epochs_before. eapply Permutation_NoDup; [symmetry; apply stable_sort_perm|]. now apply NoDup_filter. }
  pose proof (In_epochs_before d epoch) as HI. set (l := epochs_before d epoch) in *. clearbody l.
  destruct n as [|n]; [lia|]. unfold recent_epochs. rewrite last_n_length. unfold last_n in *.
  set (k := length l - S n) in *.
  assert (Hfirst : forall a b : Z, In a (firstn k l) -> In b (skipn k l) -> (a < b)%Z).
  { intros a b Ha Hb. rewrite <- (firstn_skipn k l) in Hs. revert Hs Ha Hb. generalize (firstn k l) as u, (skipn k l) as v. intros u v Hs.
    induction u as [|z u IH]; intros Ha Hb; [destruct Ha|]. cbn in Hs. apply StronglySorted_inv in Hs. destruct Hs as [Hs Hf]. destruct Ha as [->|Ha]; [|now apply IH].
    rewrite Forall_forall in Hf. apply Hf, in_or_app. now right. }
  split; [|split; [lia|split]].
  - rewrite <- (firstn_skipn k l) in Hs. revert Hs. generalize (firstn k l) as u. intros u. induction u as [|z u IH]; intros Hs; [exact Hs|]. apply IH. now apply StronglySorted_inv in Hs.
  - intros e He. apply HI. rewrite <- (firstn_skipn k l). apply in_or_app. now right.
  - intros e' K B Hni. assert (Hf : In e' (firstn k l)).
    { assert (Hin : In e' l) by (now apply HI). rewrite <- (firstn_skipn k l) in Hin. apply in_app_or in Hin. tauto. }
    split; [|intros e He; now apply Hfirst]. assert (length (firstn k l) <> 0) by (destruct (firstn k l); [destruct Hf|cbn; lia]). rewrite firstn_length in H. unfold k in H. lia.
Qed.

Lemma most_recent_current c b ed : dget (c_data c) b = Some ed -> get_most_recent_lr c b false = d_lr ed.
Proof.
  intros E. unfold get_most_recent_lr. pose proof (get_last_epoch_spec (c_data c) (b + 1)%Z) as G.
  assert (Hk : In b (dkeys (c_data c))) by (apply dget_keys; congruence).
  destruct (get_last_epoch (c_data c) (b + 1)) as [e|]; [|specialize (G b Hk); lia].
  destruct G as (A&B&C). specialize (C b Hk ltac:(lia)). assert (e = b) by lia. subst e. unfold lr_of. now rewrite E.
Qed.
Lemma relative_error_spec c key a b x : change_between c key a b x -> calc_relative_error c a b = Ok (Some x).
Proof.
  intros (old&new&ed&Ho&Hn&E&Hb&H). unfold calc_relative_error, scored in *. rewrite Ho, Hn. cbn [bind]. rewrite String.eqb_refl. cbn [negb].
  set (base := if c_div_by_old c then old else new) in *. unfold pydiv at 1. destruct (Qeq_bool (Qabs base) 0) eqn:Ez.
  { exfalso. apply Hb. apply Qeq_bool_iff in Ez. revert Ez. apply Qabs_case; intros; lra. }
  cbn [bind]. rewrite (most_recent_current c b ed E). destruct H as [(Hr&Hl&Hd&->)|[[Hr|Hl] ->]].
  - rewrite Hr. rewrite (proj2 (Qlt_bool_iff 0 (d_lr ed)) Hl). unfold pydiv. destruct (Qeq_bool (c_default c) 0) eqn:E1; [apply Qeq_bool_iff in E1; contradiction|]. cbn [bind].
    destruct (Qeq_bool (d_lr ed / c_default c) 0) eqn:E2; [|reflexivity]. exfalso. apply Qeq_bool_iff in E2.
    assert (G : (d_lr ed == (d_lr ed / c_default c) * c_default c)%Q) by (field; exact Hd). rewrite E2 in G. lra.
  - now rewrite Hr.
  - destruct (c_relative_lr c); [|reflexivity]. now rewrite (proj2 (Qlt_bool_false 0 (d_lr ed)) Hl).
Qed.
Lemma relative_errors_spec c key es xs : changes c key es xs -> relative_errors c es = Ok (map Some xs) /\ length es = S (length xs).
Proof.
  induction 1 as [e|a b es x xs H H2 [IH IHl]]; [split; reflexivity|]. split; [|cbn [length] in *; lia].
  cbn [relative_errors]. cbn [relative_errors] in IH. rewrite (relative_error_spec c key a b x H). cbn [bind]. rewrite IH. reflexivity.
Qed.
Lemma all_some_map {A} (l : list A) : all_some (map Some l) = Some l.
Proof. induction l as [|x l IH]; cbn; [reflexivity|]. now rewrite IH. Qed.
Lemma decide_spec c prev t g x : (g <= t)%Q -> decay_or_grow c prev (Qlt_bool t x) (Some (Qlt_bool x g)) = Ok (decide c prev t g x).
Proof.
  intros Hg. unfold decay_or_grow, decide. destruct (Qlt_le_dec t x) as [H|H].
  - rewrite (proj2 (Qlt_bool_iff t x) H). assert (Hx : Qlt_bool x g = false) by (apply Qlt_bool_false; lra). rewrite Hx. cbn [andb negb assert_ bind].
    destruct (Qlt_le_dec _ _) as [H2|H2]; [apply Qlt_bool_iff in H2|apply Qlt_bool_false in H2]; rewrite H2; reflexivity.
  - rewrite (proj2 (Qlt_bool_false t x) H). destruct (Qlt_le_dec x g) as [H2|H2]; [apply Qlt_bool_iff in H2|apply Qlt_bool_false in H2]; rewrite H2; reflexivity.
Qed.
Lemma multi_prev c epoch : get_most_recent_lr c epoch true = prev_expr c epoch.
Proof. reflexivity. Qed.

(** names of scores *)
Lemma after_colon_app p o : no_colon p -> after_colon (p ++ String ":" o)%string = Some o.
Proof.
  unfold no_colon. induction p as [|ch p IH]; intros H; cbn [append after_colon]; [reflexivity|]. cbn [list_ascii_of_string] in H.
  destruct (Ascii.eqb_spec ch ":"%char) as [->|_]; [exfalso; apply H; now left|]. apply IH. intros G. apply H. now right.
Qed.
Lemma fold_dset_get {A} (f : A -> string) (g : A -> Q) (l : list A) : NoDup (map f l) -> forall d : dict string Q,
  (forall x, In x l -> dget (fold_left (fun d x => dset d (f x) (g x)) l d) (f x) = Some (g x)) /\
  (forall k, ~ In k (map f l) -> dget (fold_left (fun d x => dset d (f x) (g x)) l d) k = dget d k).
Proof.
  induction l as [|y l IH]; intros Hn d; [split; [intros x []|reflexivity]|]. cbn [map] in Hn. inversion Hn as [|? ? Hy Hn']; subst.
  destruct (IH Hn' (dset d (f y) (g y))) as [G1 G2]. cbn [fold_left]. split.
  - intros x [<-|Hx]; [|now apply G1]. rewrite G2 by exact Hy. apply dget_dset_eq.
  - intros k Hk. rewrite G2 by (intros G; apply Hk; now right). apply dget_dset_neq. intros E. apply Hk. left. exact E.
Qed.
Lemma dset_new (d : dict string Q) k v : ~ In k (dkeys d) -> dset d k v = d ++ [(k, v)].
Proof.
  induction d as [|[k' v'] d IH]; intros H; [reflexivity|]. cbn in H |- *. destruct (String.eqb_spec k k') as [->|_]; [exfalso; apply H; now left|].
  destruct (String.eqb_spec k' k) as [->|_]; [exfalso; apply H; now left|]. f_equal. apply IH. tauto.
Qed.
Lemma fold_dset_new {A} (f : A -> string) (g : A -> Q) (l : list A) : NoDup (map f l) -> forall d : dict string Q,
  (forall x, In x l -> ~ In (f x) (dkeys d)) -> fold_left (fun d x => dset d (f x) (g x)) l d = d ++ map (fun x => (f x, g x)) l.
Proof.
  induction l as [|y l IH]; intros Hn d Hd; cbn [fold_left map]; [now rewrite app_nil_r|]. cbn [map] in Hn. inversion Hn as [|? ? Hy Hn']; subst.
  rewrite dset_new by (apply Hd; now left). rewrite IH; [now rewrite <- app_assoc|exact Hn'|].
  intros x Hx Hin. unfold dkeys in Hin. rewrite map_app in Hin. apply in_app_or in Hin. destruct Hin as [Hin|[Hin|[]]]; [exact (Hd x (or_intror Hx) Hin)|].
  cbn [fst] in Hin. apply Hy. pose proof (in_map f l x Hx) as G. now rewrite <- Hin in G.
Qed.
