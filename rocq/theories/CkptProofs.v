From Coq Require Import String QArith Lqa Permutation Sorted.
From Verif Require Import Base ListLemmas PyDict LrModel LrProofs CkptModel CkptSpec.
Local Open Scope nat_scope. Local Open Scope list_scope.
Local Open Scope Z_scope.

Lemma zmem_In e l : zmem e l = true <-> In e l.
Proof. unfold zmem. rewrite existsb_exists. split; [intros (x&Hx&E); apply Z.eqb_eq in E; now subst|intros H; exists e; split; [exact H|apply Z.eqb_refl]]. Qed.
Lemma zmem_false e l : zmem e l = false <-> ~ In e l.
Proof. rewrite <- zmem_In. destruct (zmem e l); split; congruence. Qed.

(** * Sorting pairs *)
Definition plt (a b : Q * Z) : Prop := (fst a < fst b)%Q \/ (fst a == fst b)%Q /\ snd a < snd b.
Lemma pair_lt_iff a b : pair_lt a b = true <-> plt a b.
Proof. unfold pair_lt, plt. rewrite orb_true_iff, andb_true_iff, Qlt_bool_iff, Qeq_bool_iff, Z.ltb_lt. tauto. Qed.
Lemma plt_trans a b c : plt a b -> plt b c -> plt a c.
Proof. unfold plt. intros [H1|[H1 H1']] [H2|[H2 H2']]; [left; lra|left; lra|left; lra|right; split; [lra|lia]]. Qed.
Lemma plt_irrefl a : ~ plt a a.
Proof. unfold plt. intros [H|[_ H]]; [lra|lia]. Qed.
Lemma plt_total a b : snd a <> snd b -> plt a b \/ plt b a.
Proof. unfold plt. intros H. destruct (Qlt_le_dec (fst a) (fst b)); [tauto|]. destruct (Qlt_le_dec (fst b) (fst a)); [tauto|]. assert (fst a == fst b)%Q by lra. destruct (Z.lt_total (snd a) (snd b)) as [Hl|[Hl|Hl]]; [tauto|congruence|]. right. right. split; [lra|exact Hl]. Qed.

Lemma insert_pair_perm x l : Permutation (insert_pair x l) (x :: l).
Proof. induction l as [|y l IH]; cbn; [reflexivity|]. destruct (pair_lt y x); [|reflexivity]. rewrite IH. apply perm_swap. Qed.
Lemma sort_pairs_perm l : Permutation (sort_pairs l) l.
Proof. induction l as [|x l IH]; cbn; [reflexivity|]. rewrite insert_pair_perm. now apply perm_skip. Qed.
Lemma insert_pair_sorted x l : NoDup (map snd (x :: l)) -> StronglySorted plt l -> StronglySorted plt (insert_pair x l).
Proof.
  intros Hn. induction 1 as [|y l Hs IH Hf]; cbn; [repeat constructor|]. cbn in Hn. apply NoDup_cons_iff in Hn. destruct Hn as [Hni Hn]. destruct (pair_lt y x) eqn:E.
  - constructor; [apply IH; cbn; constructor; [intros H; apply Hni; now right|now apply NoDup_cons_iff in Hn]|]. eapply Permutation_Forall; [symmetry; apply insert_pair_perm|]. constructor; [now apply pair_lt_iff|exact Hf].
  - assert (Hxy : plt x y). { destruct (plt_total x y) as [H|H]; [intros E'; apply Hni; left; now symmetry|exact H|]. apply pair_lt_iff in H. congruence. }
    constructor; [now constructor|]. constructor; [exact Hxy|]. eapply Forall_impl; [|exact Hf]. intros z Hz. eapply plt_trans; eauto.
Qed.
Lemma sort_pairs_sorted l : NoDup (map snd l) -> StronglySorted plt (sort_pairs l).
Proof.
  induction l as [|x l IH]; cbn; intros H; [constructor|]. apply insert_pair_sorted.
  - cbn. apply NoDup_cons_iff in H. destruct H as [Hni H]. constructor.
    + intros Hin. apply Hni. eapply Permutation_in; [apply Permutation_map, sort_pairs_perm|exact Hin].
    + eapply Permutation_NoDup; [apply Permutation_map; symmetry; apply sort_pairs_perm|exact H].
  - apply IH. now apply NoDup_cons_iff in H.
Qed.
Lemma filter_perm_length {A} (p : A -> bool) l l' : Permutation l l' -> length (filter p l) = length (filter p l').
Proof. induction 1; cbn; auto; try congruence; [destruct (p x); cbn; congruence|destruct (p x), (p y); reflexivity]. Qed.
Lemma firstn_sorted l n x : StronglySorted plt l -> (In x (firstn n l) <-> In x l /\ (length (filter (fun y => pair_lt y x) l) < n)%nat).
Proof.
  intros Hs. revert n. induction Hs as [|y l Hs IH Hf]; intros n.
  - rewrite firstn_nil. cbn. tauto.
  - rewrite Forall_forall in Hf. assert (Hnot : forall z, In z (y :: l) -> pair_lt z y = false).
    { intros z [<-|Hz]; apply not_true_iff_false; rewrite pair_lt_iff; [apply plt_irrefl|]. intros H. apply (plt_irrefl y). eapply plt_trans; [apply Hf; eassumption|exact H]. }
    destruct n as [|n]; [cbn [firstn]; split; [intros []|lia]|]. cbn [firstn].
    destruct (pair_lt y x) eqn:E; cbn [filter]; rewrite ?E; cbn [List.length].
    + assert (y <> x) by (intros ->; apply pair_lt_iff, plt_irrefl in E; exact E). cbn [In]. rewrite IH. split; [intros [H1|[H1 H2]]; [congruence|split; [now right|lia]]|intros [[H1|H1] H2]; [congruence|right; split; [exact H1|lia]]].
    + cbn [In]. rewrite IH. split.
      * intros [->|[H1 H2]].
        -- split; [now left|]. assert (Ef : filter (fun z => pair_lt z x) l = []); [|rewrite Ef; cbn; lia]. assert (Hx : forall z, In z l -> pair_lt z x = false) by (intros z Hz; apply Hnot; now right).
           clear - Hx. induction l as [|z l IH]; cbn; [reflexivity|]. rewrite (Hx z (or_introl eq_refl)). apply IH. intros w Hw. apply Hx. now right.
        -- exfalso. specialize (Hf _ H1). apply pair_lt_iff in Hf. congruence.
      * intros [[H1|H1] H2]; [now left|]. exfalso. specialize (Hf _ H1). apply pair_lt_iff in Hf. congruence.
Qed.
Lemma best_n l n x : NoDup (map snd l) -> (In x (firstn n (sort_pairs l)) <-> In x l /\ (length (filter (fun y => pair_lt y x) l) < n)%nat).
Proof.
  intros Hn. rewrite firstn_sorted by now apply sort_pairs_sorted. rewrite (filter_perm_length _ _ _ (sort_pairs_perm l)).
  split; intros [H1 H2]; (split; [|exact H2]); eapply Permutation_in; try exact H1; [|symmetry]; apply sort_pairs_perm.
Qed.

(** * Maximum and minimum *)
Lemma qmax_spec x l : In (qmax x l) (x :: l) /\ forall y, In y (x :: l) -> (y <= qmax x l)%Q.
Proof.
  unfold qmax. revert x. induction l as [|z l IH]; intros x; cbn [fold_left]; [split; [now left|intros y [->|[]]; lra]|].
  destruct (IH (if Qlt_bool x z then z else x)) as [H1 H2]. split.
  - destruct H1 as [H1|H1]; [|right; now right]. rewrite <- H1. destruct (Qlt_bool x z); [right; now left|now left].
  - intros y Hy. destruct (Qlt_bool x z) eqn:E; [apply Qlt_bool_iff in E|apply Qlt_bool_false in E].
    + specialize (H2 z (or_introl eq_refl)) as Hz. destruct Hy as [<-|[<-|Hy]]; [lra|exact Hz|apply H2; now right].
    + specialize (H2 x (or_introl eq_refl)) as Hz. destruct Hy as [<-|[<-|Hy]]; [exact Hz|lra|apply H2; now right].
Qed.
Lemma qmin_spec x l : In (qmin x l) (x :: l) /\ forall y, In y (x :: l) -> (qmin x l <= y)%Q.
Proof.
  unfold qmin. revert x. induction l as [|z l IH]; intros x; cbn [fold_left]; [split; [now left|intros y [->|[]]; lra]|].
  destruct (IH (if Qlt_bool z x then z else x)) as [H1 H2]. split.
  - destruct H1 as [H1|H1]; [|right; now right]. rewrite <- H1. destruct (Qlt_bool z x); [right; now left|now left].
  - intros y Hy. destruct (Qlt_bool z x) eqn:E; [apply Qlt_bool_iff in E|apply Qlt_bool_false in E].
    + specialize (H2 z (or_introl eq_refl)) as Hz. destruct Hy as [<-|[<-|Hy]]; [lra|exact Hz|apply H2; now right].
    + specialize (H2 x (or_introl eq_refl)) as Hz. destruct Hy as [<-|[<-|Hy]]; [exact Hz|lra|apply H2; now right].
Qed.

Lemma values_of_In data epochs key v : In v (values_of data epochs key) <-> exists e, In e epochs /\ has_score data e key v.
Proof.
  unfold values_of, has_score. rewrite in_flat_map. split.
  - intros (e&He&H). exists e. split; [exact He|]. destruct (dget data e) as [d|]; [|destruct H]. exists d. split; [reflexivity|]. destruct (dget d key) as [w|]; [destruct H as [->|[]]; reflexivity|destruct H].
  - intros (e&He&d&Hd&Hk). exists e. split; [exact He|]. rewrite Hd, Hk. now left.
Qed.

(** * The default pattern *)
Lemma multiples_In fuel step n last e : 1 <= step -> last - n < Z.of_nat fuel -> (In e (multiples fuel step n last) <-> e <= last /\ exists i, 0 <= i /\ e = n + step * i).
Proof.
  intros Hs. revert n. induction fuel as [|fuel IH]; intros n Hf; cbn [multiples].
  - split; [intros []|]. intros (H1&i&Hi&->). nia.
  - rewrite Z.gtb_ltb. destruct (Z.ltb_spec last n) as [Hl|Hl]; [split; [intros []|intros (H1&i&Hi&->); nia]|].
    cbn [In]. rewrite IH by lia. split.
    + intros [<-|(H1&i&Hi&->)]; [split; [lia|exists 0; lia]|split; [lia|exists (i + 1); lia]].
    + intros (H1&i&Hi&->). destruct (Z.eq_dec i 0) as [->|Hn]; [left; lia|right]. split; [lia|]. exists (i - 1). lia.
Qed.
Lemma doubles_In fuel n last e : 1 <= n -> last - n < Z.of_nat fuel -> (In e (doubles fuel n last) <-> e <= last /\ exists i, 0 <= i /\ e = n * 2 ^ i).
Proof.
  revert n. induction fuel as [|fuel IH]; intros n Hn Hf; cbn [doubles].
  - split; [intros []|]. intros (H1&i&Hi&->). pose proof (Z.pow_pos_nonneg 2 i ltac:(lia) Hi). nia.
  - rewrite Z.gtb_ltb. destruct (Z.ltb_spec last n) as [Hl|Hl].
    { split; [intros []|intros (H1&i&Hi&->)]. pose proof (Z.pow_pos_nonneg 2 i ltac:(lia) Hi). nia. }
    cbn [In]. rewrite IH by lia. split.
    + intros [<-|(H1&i&Hi&->)]; [split; [lia|exists 0; split; [lia|]; rewrite Z.pow_0_r; lia]|]. split; [lia|]. exists (i + 1). split; [lia|]. rewrite Z.pow_add_r, Z.pow_1_r by lia. ring.
    + intros (H1&i&Hi&E). destruct (Z.eq_dec i 0) as [->|Hn0]; [left; rewrite Z.pow_0_r in E; lia|right]. split; [exact H1|]. exists (i - 1). split; [lia|].
      rewrite E. replace i with ((i - 1) + 1) at 1 by lia. rewrite Z.pow_add_r, Z.pow_1_r by lia. ring.
Qed.
Lemma keep_steps_pos last : 1 <= fst (keep_steps last) /\ 1 <= snd (keep_steps last).
Proof.
  unfold keep_steps. destruct (last <=? 10); [cbn; lia|]. destruct (last <=? 50); [cbn; lia|]. destruct (last <=? 100); [cbn; lia|]. cbn [fst snd]. split; [|lia].
  unfold next_power_of_two. assert (0 <= bit_length (1 + last / 240 - 1)) by (unfold bit_length; destruct (_ - 1); lia). pose proof (Z.pow_pos_nonneg 2 _ ltac:(lia) H). lia.
Qed.
Lemma default_keep_In last e : 0 <= last -> (In e (default_keep last) <-> e <= last /\ ((exists i, 1 <= i /\ e = fst (keep_steps last) * i) \/ (exists i, 0 <= i /\ e = snd (keep_steps last) * 2 ^ i))).
Proof.
  intros Hl. unfold default_keep. destruct (keep_steps_pos last) as [H1 H2]. destruct (keep_steps last) as [a b]. cbn [fst snd] in *. rewrite in_app_iff, multiples_In, doubles_In by lia.
  split.
  - intros [(A&i&Hi&->)|(A&B)]; [split; [exact A|]; left; exists (i + 1); lia|tauto].
  - intros (A&[(i&Hi&->)|B]); [left; split; [exact A|]; exists (i - 1); lia|tauto].
Qed.

(** * The best *)
Definition effective (data : scores) (key : string) (worst : Q) (e : Z) : Q :=
  match dget data e with Some d => match dget d key with Some v => v | None => worst end | None => worst end.
Lemma effective_spec data epochs key v vs e : values_of data epochs key = v :: vs -> counts_as data epochs key e (effective data key (qmax v vs) e).
Proof.
  intros Hv. destruct (qmax_spec v vs) as [M1 M2]. rewrite <- Hv in M1, M2. unfold effective.
  assert (Hw : (~ exists w, has_score data e key w) -> counts_as data epochs key e (qmax v vs)).
  { intros Hno. right. split; [exact Hno|]. apply values_of_In in M1. destruct M1 as (e'&He'&Hs). exists e'. split; [exact He'|]. split; [exact Hs|]. intros e'' v'' He'' Hs''. apply M2. apply values_of_In. eauto. }
  destruct (dget data e) as [d|] eqn:Ed; [|apply Hw; intros (w&d&Hd&_); congruence]. destruct (dget d key) as [w|] eqn:Ek; [left; exists d; auto|].
  apply Hw. intros (w&d'&Hd&Hk). congruence.
Qed.
Lemma counts_as_unique data epochs key e v v' : counts_as data epochs key e v -> counts_as data epochs key e v' -> (v == v')%Q.
Proof.
  intros [(d&Hd&Hk)|(Hn&e1&He1&Hs1&Hm1)] [(d'&Hd'&Hk')|(Hn'&e2&He2&Hs2&Hm2)].
  - assert (v = v') by congruence. subst. reflexivity.
  - exfalso. apply Hn'. exists v, d. auto.
  - exfalso. apply Hn. exists v', d'. auto.
  - specialize (Hm1 _ _ He2 Hs2). specialize (Hm2 _ _ He1 Hs1). lra.
Qed.
Lemma better_iff data epochs key v vs e e' : values_of data epochs key = v :: vs ->
  (better data epochs key e e' <-> pair_lt (effective data key (qmax v vs) e, e) (effective data key (qmax v vs) e', e') = true).
Proof.
  intros Hv. rewrite pair_lt_iff. unfold plt. cbn [fst snd]. pose proof (effective_spec data epochs key v vs e Hv) as E1. pose proof (effective_spec data epochs key v vs e' Hv) as E2. split.
  - intros (w&w'&H1&H2&H3). pose proof (counts_as_unique _ _ _ _ _ _ E1 H1). pose proof (counts_as_unique _ _ _ _ _ _ E2 H2). destruct H3 as [H3|[H3 H4]]; [left; lra|right; split; [lra|exact H4]].
  - intros H. exists (effective data key (qmax v vs) e), (effective data key (qmax v vs) e'). auto.
Qed.
Lemma distinguishes_iff data epochs key v vs : values_of data epochs key = v :: vs -> (distinguishes data epochs key <-> Qeq_bool (qmin v vs) (qmax v vs) = false).
Proof.
  intros Hv. destruct (qmax_spec v vs) as [M1 M2]. destruct (qmin_spec v vs) as [N1 N2]. rewrite <- Hv in *. split.
  - intros (e&e'&a&b&He&He'&Ha&Hb&Hne). apply not_true_iff_false. rewrite Qeq_bool_iff. intros Heq. apply Hne.
    assert (Ia : In a (values_of data epochs key)) by (apply values_of_In; eauto). assert (Ib : In b (values_of data epochs key)) by (apply values_of_In; eauto).
    pose proof (M2 _ Ia). pose proof (M2 _ Ib). pose proof (N2 _ Ia). pose proof (N2 _ Ib). lra.
  - intros H. apply not_true_iff_false in H. rewrite Qeq_bool_iff in H. apply values_of_In in M1, N1. destruct M1 as (e&He&Hs), N1 as (e'&He'&Hs'). exists e', e, (qmin v vs), (qmax v vs). auto.
Qed.

Lemma filter_map_length {A B} (f : A -> B) (p : B -> bool) l : length (filter p (map f l)) = length (filter (fun a => p (f a)) l).
Proof. induction l as [|x l IH]; cbn; [reflexivity|]. destruct (p (f x)); cbn; now rewrite IH. Qed.
Lemma best_for_In data epochs n key e : NoDup epochs -> 0 <= n -> (In e (best_for data epochs n key) <-> distinguishes data epochs key /\ among_best data epochs n key e).
Proof.
  intros Hnd Hn. unfold best_for. destruct (values_of data epochs key) as [|v vs] eqn:Hv.
  - split; [intros []|]. intros [(a&b&x&y&Ha&_&Hx&_) _]. assert (H : In x (values_of data epochs key)) by (apply values_of_In; eauto). rewrite Hv in H. destruct H.
  - pose proof (distinguishes_iff _ _ _ _ _ Hv) as Hd. destruct (Qeq_bool (qmin v vs) (qmax v vs)) eqn:Eq; [split; [intros []|intros [H _]; apply Hd in H; discriminate]|].
    set (l := map (fun e => (_, e)) epochs).
    assert (El : l = map (fun e => (effective data key (qmax v vs) e, e)) epochs) by reflexivity.
    assert (Hndl : NoDup (map snd l)) by (rewrite El, map_map; cbn [snd]; now rewrite map_id).
    rewrite in_map_iff. split.
    + intros ((q&e')&E&Hin). cbn in E. subst e'. apply best_n in Hin; [|exact Hndl]. destruct Hin as [Hin Hlen]. rewrite El in Hin. apply in_map_iff in Hin. destruct Hin as (e'&E&He). injection E as E ->. subst q.
      split; [now apply Hd|]. split; [exact He|]. rewrite El, filter_map_length in Hlen. exists (filter (fun a => pair_lt (effective data key (qmax v vs) a, a) (effective data key (qmax v vs) e, e)) epochs). split; [lia|]. intros e1 He1 Hb. apply filter_In. split; [exact He1|]. apply (better_iff _ _ _ _ _ _ _ Hv). exact Hb.
    + intros [_ (He&bs&Hlen&Hbs)]. exists (effective data key (qmax v vs) e, e). split; [reflexivity|]. apply best_n; [exact Hndl|]. rewrite El. split; [apply in_map_iff; eauto|]. rewrite filter_map_length.
      assert (Hincl : (length (filter (fun a => pair_lt (effective data key (qmax v vs) a, a) (effective data key (qmax v vs) e, e)) epochs) <= length bs)%nat).
      { apply NoDup_incl_length; [now apply NoDup_filter|]. intros a Ha. apply filter_In in Ha. destruct Ha as [Ha Hl]. apply Hbs; [exact Ha|]. apply (better_iff _ _ _ _ _ _ _ Hv). exact Hl. }
      lia.
Qed.

(** * The last *)
Lemma ascending_NoDup l : ascending l -> NoDup l.
Proof. induction l as [|x l IH]; cbn; intros H; constructor; [intros Hin; destruct H as [H _]; specialize (H _ Hin); lia|now apply IH]. Qed.
Lemma ascending_app l l' : ascending (l ++ l') -> ascending l' /\ forall x y, In x l -> In y l' -> x < y.
Proof. induction l as [|a l IH]; cbn; [intros H; split; [exact H|intros x y []]|]. intros [H1 H2]. destruct (IH H2) as [A B]. split; [exact A|]. intros x y [<-|Hx] Hy; [apply H1, in_app_iff; now right|auto]. Qed.
Lemma ascending_filter p l : ascending l -> ascending (filter p l).
Proof. induction l as [|x l IH]; cbn; [auto|]. intros [H1 H2]. destruct (p x); cbn; auto. split; auto. intros y Hy. apply filter_In in Hy. now apply H1. Qed.
Lemma filter_length_le' {A} (p : A -> bool) l : (length (filter p l) <= length l)%nat.
Proof. induction l as [|x l IH]; cbn; [lia|]. destruct (p x); cbn; lia. Qed.
Lemma in_last_n epochs n e : ascending epochs -> 0 <= n -> (In e (skipn (length epochs - Z.to_nat n) epochs) <-> among_last epochs n e).
Proof.
  intros Ha Hn. set (k := (length epochs - Z.to_nat n)%nat). rewrite <- (firstn_skipn k epochs) in Ha at 1. pose proof (ascending_app _ _ Ha) as [Hs Hlt]. split.
  - intros Hin. split; [now apply In_skipn in Hin|]. exists (filter (fun e' => e <? e') (skipn k epochs)). split.
    + assert (Hl : (length (filter (fun e' => (e <? e')%Z) (skipn k epochs)) < length (skipn k epochs))%nat).
      { clear - Hin. induction (skipn k epochs) as [|x l IH]; [destruct Hin|]. cbn. destruct Hin as [->|Hin].
        - rewrite Z.ltb_irrefl. pose proof (filter_length_le' (fun e' => e <? e') l). lia.
        - specialize (IH Hin). destruct (e <? x); cbn; lia. }
      rewrite skipn_length in Hl. unfold k in *. lia.
    + intros e' He' Hlt'. apply filter_In. split; [|now apply Z.ltb_lt]. rewrite <- (firstn_skipn k epochs) in He'. apply in_app_iff in He'. destruct He' as [He'|He']; [|exact He'].
      specialize (Hlt _ _ He' Hin). lia.
  - intros (Hin&later&Hlen&Hl). rewrite <- (firstn_skipn k epochs) in Hin. apply in_app_iff in Hin. destruct Hin as [Hin|Hin]; [|exact Hin]. exfalso.
    assert (Hincl : (length (skipn k epochs) <= length later)%nat).
    { apply NoDup_incl_length; [now apply ascending_NoDup|]. intros e' He'. apply Hl; [now apply In_skipn in He'|now apply Hlt]. }
    rewrite skipn_length in Hincl. assert (length (firstn k epochs) <> 0)%nat by (destruct (firstn k epochs); [destruct Hin|cbn; lia]). rewrite firstn_length in H. unfold k in *. lia.
Qed.

Lemma score_keys_In data epochs key : distinguishes data epochs key -> In key (score_keys data).
Proof.
  intros (e&e'&v&v'&_&_&(d&Hd&Hk)&_). unfold score_keys. apply in_flat_map. exists (e, d). split; [now apply dget_In|]. cbn. apply dget_keys. congruence.
Qed.
Lemma last_nonneg epochs : (forall e, In e epochs -> 1 <= e) -> 0 <= last epochs 0.
Proof. intros H. destruct epochs as [|x l] eqn:E; [cbn; lia|]. rewrite <- E in *. assert (In (last epochs 0) epochs); [|specialize (H _ H0); lia]. subst. clear. revert x. induction l as [|y l IH]; intros x; [now left|]. right. apply (IH y). Qed.

Lemma kept_In data epochs o e : ascending epochs -> (forall e, In e epochs -> 1 <= e) -> 1 <= o_last o -> 0 <= o_best o ->
  (In e (kept data epochs o) <-> In e epochs /\ (keep_set o (last epochs 0) e \/ among_last epochs (o_last o) e \/ exists key, distinguishes data epochs key /\ among_best data epochs (o_best o) key e)).
Proof.
  intros Ha Hpos H1 H2. unfold kept. rewrite filter_In, !orb_true_iff, !zmem_In, in_last_n by (auto; lia).
  assert (Hk : In e (match o_keep o with Some k => k | None => default_keep (last epochs 0) end) <-> keep_set o (last epochs 0) e).
  { unfold keep_set. destruct (o_keep o); [reflexivity|]. apply default_keep_In. now apply last_nonneg. }
  assert (Hb : In e (flat_map (best_for data epochs (o_best o)) (score_keys data)) <-> exists key, distinguishes data epochs key /\ among_best data epochs (o_best o) key e).
  { rewrite in_flat_map. split; [intros (key&_&H); exists key; apply best_for_In; auto using ascending_NoDup|intros (key&Hd&Hb); exists key; split; [eapply score_keys_In; eauto|apply best_for_In; auto using ascending_NoDup]]. }
  rewrite Hk, Hb. tauto.
Qed.

Lemma cleanup_spec data epochs o removed : ascending epochs -> (forall e, In e epochs -> 1 <= e) -> cleanup data epochs o = Ok removed ->
  (forall e, In e removed <->
     In e epochs /\ Z.max (o_last o) (o_best o) < Z.of_nat (length epochs) /\
     ~ (keep_set o (last epochs 0) e \/ among_last epochs (o_last o) e \/ exists key, distinguishes data epochs key /\ among_best data epochs (o_best o) key e)) /\ ascending removed.
Proof.
  intros Ha Hpos H. unfold cleanup in H. destruct epochs as [|e0 es] eqn:Ees; [apply Ok_inj in H; subst; split; [intros e; split; [intros []|intros [[] _]]|exact I]|]. rewrite <- Ees in *.
  apply bind_Ok in H. destruct H as ([]&Has&H). apply assert_Ok in Has. apply andb_true_iff in Has. destruct Has as [H1 H2]. apply Z.leb_le in H1, H2. rewrite Z.geb_leb in H.
  destruct (Z.leb_spec (Z.of_nat (length epochs)) (Z.max (o_last o) (o_best o))) as [Hm|Hm].
  { apply Ok_inj in H. subst removed. split; [intros e; split; [intros []|intros (_&Hc&_); lia]|exact I]. }
  apply bind_Ok in H. destruct H as ([]&_&H). apply bind_Ok in H. destruct H as ([]&_&H). cbv zeta in H.
  assert (Hr : removed = filter (fun e => negb (zmem e (kept data epochs o))) epochs).
  { destruct (filter _ epochs) as [|x l]; [now apply Ok_inj in H|]. apply bind_Ok in H. destruct H as ([]&_&H). now apply Ok_inj in H. }
  clear H. subst removed. split; [|now apply ascending_filter]. intros e. rewrite filter_In, negb_true_iff, zmem_false, kept_In by auto. tauto.
Qed.
Lemma cleanup_last_pos data epochs o removed e : cleanup data epochs o = Ok removed -> In e removed -> 1 <= o_last o.
Proof.
  unfold cleanup. destruct epochs; [intros H; apply Ok_inj in H; subst; intros []|]. intros H _. apply bind_Ok in H. destruct H as ([]&Has&_). apply assert_Ok in Has. apply andb_true_iff in Has. destruct Has as [H1 _]. now apply Z.leb_le in H1.
Qed.
