From Coq Require Import QArith Qminmax Qfield.
From Verif Require Import Base StatsModel StatsSpec.
Local Open Scope list_scope. Local Open Scope Q_scope.

Definition sq (l : list Q) : Q := qsum (map (fun x => x * x) l).
Lemma qsum_app a b : qsum (a ++ b) == qsum a + qsum b.
Proof. unfold qsum. induction a as [|x a IH]; cbn [app fold_right]; [ring|]. rewrite IH. ring. Qed.
Lemma qlen_app a b : qlen (a ++ b) == qlen a + qlen b.
Proof. unfold qlen. rewrite app_length, Nat2Z.inj_add, inject_Z_plus. reflexivity. Qed.
Lemma qlen_pos l : l <> [] -> ~ qlen l == 0.
Proof. destruct l as [|x l]; [congruence|]. intros _. unfold qlen, Qeq. cbn. lia. Qed.
Lemma qlen_cons x l : qlen (x :: l) == 1 + qlen l.
Proof. unfold qlen. cbn [length]. rewrite Nat2Z.inj_succ. unfold Z.succ. rewrite inject_Z_plus. unfold inject_Z at 2. ring. Qed.
Lemma centered l c : qsum (map (fun x => (x - c) * (x - c)) l) == sq l - (2#1) * c * qsum l + c * c * qlen l.
Proof.
  unfold sq. induction l as [|x l IH]; [change (qlen []) with 0; cbn [map qsum fold_right]; ring|]. cbn [map qsum fold_right] in *. fold (qsum (map (fun x => (x - c) * (x - c)) l)) in *. fold (qsum (map (fun x => x * x) l)) in *. fold (qsum l) in *. rewrite IH, qlen_cons. ring.
Qed.
Lemma var_alt l : l <> [] -> np_var l == sq l / qlen l - qsum l / qlen l * (qsum l / qlen l).
Proof. intros H. unfold np_var. rewrite centered. unfold np_mean. field. now apply qlen_pos. Qed.

Record inv (s : stats) (l : list Q) : Prop := {
  i_len : total_data_len s = length l;
  i_mean : l <> [] -> mean s == qsum l / qlen l;
  i_sq : l <> [] -> mean_sq s == sq l / qlen l;
  i_var : l <> [] -> var s == sq l / qlen l - qsum l / qlen l * (qsum l / qlen l) }.
Lemma sq_app a b : sq (a ++ b) == sq a + sq b.
Proof. unfold sq. rewrite map_app. apply qsum_app. Qed.
Lemma collect_inv s l data : inv s l -> (l = [] -> mean s == 0 /\ mean_sq s == 0 /\ var s == 0) -> inv (collect s data) (l ++ data).
Proof.
  intros [H1 H2 H3 H4] H0. destruct data as [|x data']; [rewrite app_nil_r; now constructor|]. set (data := x :: data'). assert (Hd : data <> []) by discriminate.
  assert (Hn : ~ qlen data == 0) by (now apply qlen_pos). assert (Hne : l ++ data <> []) by (intros E; apply app_eq_nil in E; tauto). assert (Hln : ~ qlen (l ++ data) == 0) by (now apply qlen_pos). rewrite qlen_app in Hln.
  assert (Hnew : inject_Z (Z.of_nat (total_data_len s + length data)) == qlen l + qlen data) by (rewrite H1; unfold qlen; rewrite Nat2Z.inj_add, inject_Z_plus; reflexivity).
  assert (Htot : inject_Z (Z.of_nat (total_data_len s)) == qlen l) by (rewrite H1; reflexivity).
  constructor; unfold data; cbn [collect total_data_len mean mean_sq var]; fold data.
  - rewrite H1, app_length. reflexivity.
  - intros _. rewrite Hnew, qsum_app, qlen_app. destruct l as [|y l'].
    + destruct (H0 eq_refl) as (->&_). change (qlen []) with 0 in *. change (qsum []) with 0. field. exact Hn.
    + rewrite H2 by discriminate. field. split; [exact Hln|apply qlen_pos; discriminate].
  - intros _. fold (sq data). rewrite Hnew, sq_app, qlen_app. destruct l as [|y l'].
    + destruct (H0 eq_refl) as (_&->&_). change (qlen []) with 0 in *. change (sq []) with 0. field. exact Hn.
    + rewrite H3 by discriminate. field. split; [exact Hln|apply qlen_pos; discriminate].
  - intros _. rewrite Hnew, Htot, (var_alt data Hd), sq_app, qsum_app, qlen_app. unfold np_mean. destruct l as [|y l'].
    + destruct (H0 eq_refl) as (->&_&->). change (qlen []) with 0 in *. change (sq []) with 0. change (qsum []) with 0. field; exact Hn.
    + rewrite H2, H4 by discriminate. field. repeat split; try exact Hln; try exact Hn; apply qlen_pos; discriminate.
Qed.
Definition collect_all (groups : list (list Q)) : stats := fold_left collect groups stats_init.
Lemma fold_inv groups : forall s l, inv s l -> (l = [] -> mean s == 0 /\ mean_sq s == 0 /\ var s == 0) -> inv (fold_left collect groups s) (l ++ concat groups).
Proof.
  induction groups as [|g groups IH]; intros s l Hi H0; cbn [fold_left concat]; [now rewrite app_nil_r|]. rewrite app_assoc. apply IH; [now apply collect_inv|]. intros E. apply app_eq_nil in E. destruct E as [-> ->]. now apply H0.
Qed.
Lemma all_inv groups : inv (collect_all groups) (concat groups).
Proof. apply (fold_inv groups stats_init []); [constructor; [reflexivity| | |]; congruence|intros _; repeat split; reflexivity]. Qed.

Lemma min_cases a b : (Qmin a b = a /\ a <= b) \/ (Qmin a b = b /\ b <= a).
Proof. unfold Qmin, GenericMinMax.gmin. destruct (a ?= b) eqn:E; [left|left|right]; (split; [reflexivity|]); rewrite ?Qle_alt; try (rewrite E; discriminate). rewrite <- Qgt_alt in E. rewrite <- Qle_alt. now apply Qlt_le_weak. Qed.
Lemma max_cases a b : (Qmax a b = b /\ a <= b) \/ (Qmax a b = a /\ b <= a).
Proof. unfold Qmax, GenericMinMax.gmax. destruct (a ?= b) eqn:E; [right|left|right]; (split; [reflexivity|]). - apply Qeq_alt in E. rewrite E. apply Qle_refl. - apply Qlt_alt in E. now apply Qlt_le_weak. - apply Qgt_alt in E. now apply Qlt_le_weak. Qed.
Lemma np_min_spec l : forall x, is_min (x :: l) (np_min x l).
Proof.
  induction l as [|y l IH]; intros x; [split; [now left|intros z [<-|[]]; apply Qle_refl]|]. change (np_min x (y :: l)) with (np_min (Qmin x y) l). destruct (IH (Qmin x y)) as [Hin Hle]. pose proof (Hle _ (or_introl eq_refl)) as Hm. split.
  - destruct Hin as [E|Hin]; [|right; now right]. rewrite <- E. destruct (min_cases x y) as [[-> _]|[-> _]]; [now left|right; now left].
  - intros z [<-|[<-|Hz]]; [| |apply Hle; now right]; (eapply Qle_trans; [exact Hm|]); destruct (min_cases x y) as [[-> H]|[-> H]]; auto using Qle_refl.
Qed.
Lemma np_max_spec l : forall x, is_max (x :: l) (np_max x l).
Proof.
  induction l as [|y l IH]; intros x; [split; [now left|intros z [<-|[]]; apply Qle_refl]|]. change (np_max x (y :: l)) with (np_max (Qmax x y) l). destruct (IH (Qmax x y)) as [Hin Hle]. pose proof (Hle _ (or_introl eq_refl)) as Hm. split.
  - destruct Hin as [E|Hin]; [|right; now right]. rewrite <- E. destruct (max_cases x y) as [[-> _]|[-> _]]; [right; now left|now left].
  - intros z [<-|[<-|Hz]]; [| |apply Hle; now right]; (eapply Qle_trans; [|exact Hm]); destruct (max_cases x y) as [[-> H]|[-> H]]; auto using Qle_refl.
Qed.
Record minv (s : stats) (l : list Q) : Prop := {
  m_min : match s_min s with Some m => is_min l m | None => l = [] end;
  m_max : match s_max s with Some m => is_max l m | None => l = [] end }.
Lemma is_min_app l1 l2 a b : is_min l1 a -> is_min l2 b -> is_min (l1 ++ l2) (Qmin a b).
Proof.
  intros [H1 H2] [H3 H4]. destruct (min_cases a b) as [[-> H]|[-> H]]; split; try (apply in_or_app; tauto); intros x Hx; apply in_app_or in Hx; destruct Hx as [Hx|Hx]; auto; eapply Qle_trans; eauto.
Qed.
Lemma is_max_app l1 l2 a b : is_max l1 a -> is_max l2 b -> is_max (l1 ++ l2) (Qmax a b).
Proof.
  intros [H1 H2] [H3 H4]. destruct (max_cases a b) as [[-> H]|[-> H]]; split; try (apply in_or_app; tauto); intros x Hx; apply in_app_or in Hx; destruct Hx as [Hx|Hx]; auto; eapply Qle_trans; eauto.
Qed.
Lemma collect_minv s l data : minv s l -> minv (collect s data) (l ++ data).
Proof.
  intros [H1 H2]. destruct data as [|x data]; [rewrite app_nil_r; now constructor|]. constructor; cbn [collect s_min s_max].
  - destruct (s_min s) as [m|]; [apply is_min_app; [exact H1|apply np_min_spec]|subst l; apply np_min_spec].
  - destruct (s_max s) as [m|]; [apply is_max_app; [exact H2|apply np_max_spec]|subst l; apply np_max_spec].
Qed.
Lemma fold_minv groups : forall s l, minv s l -> minv (fold_left collect groups s) (l ++ concat groups).
Proof. induction groups as [|g groups IH]; intros s l H; cbn [fold_left concat]; [now rewrite app_nil_r|]. rewrite app_assoc. apply IH. now apply collect_minv. Qed.
Lemma collect_num s data : num_seqs (collect s data) = (num_seqs s + if data then 0 else 1)%nat.
Proof. destruct data; cbn; lia. Qed.
Lemma fold_num groups : forall s, num_seqs (fold_left collect groups s) = (num_seqs s + length (filter (fun g : list Q => negb (length g =? 0)%nat) groups))%nat.
Proof. induction groups as [|g groups IH]; intros s; cbn [fold_left filter]; [cbn; lia|]. rewrite IH, collect_num. destruct g; cbn; lia. Qed.
