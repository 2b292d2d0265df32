From Coq Require Import QArith Lqa Permutation Sorted.
From Verif Require Import Base ListLemmas LrModel SearchModel SearchProofs FilterModel FilterSpec.
Local Open Scope nat_scope. Local Open Scope list_scope.
Local Open Scope Z_scope.

Lemma memz_In x l : memz x l = true <-> In x l.
Proof. unfold memz. rewrite existsb_exists. split; [intros (y&Hy&E); apply Z.eqb_eq in E; now subst|intros H; exists x; split; [exact H|apply Z.eqb_refl]]. Qed.
Definition zlt (a b : Z * Z) : Prop := fst a < fst b \/ (fst a = fst b /\ snd a < snd b).
Lemma zpair_lt_iff a b : zpair_lt a b = true <-> zlt a b.
Proof. unfold zpair_lt, zlt. rewrite orb_true_iff, andb_true_iff, !Z.ltb_lt, Z.eqb_eq. tauto. Qed.
Lemma insert_len_perm x l : Permutation (insert_len x l) (x :: l).
Proof. induction l as [|y l IH]; cbn [insert_len]; [reflexivity|]. destruct (zpair_lt y x); [|reflexivity]. rewrite IH. apply perm_swap. Qed.
Lemma sort_lens_perm l : Permutation (sort_lens l) l.
Proof. induction l as [|x l IH]; cbn [sort_lens]; [reflexivity|]. rewrite insert_len_perm. now apply perm_skip. Qed.
Lemma insert_len_sorted x l : ~ In x l -> StronglySorted zlt l -> StronglySorted zlt (insert_len x l).
Proof.
  intros Hn Hs. induction Hs as [|y l Hs IH Hf]; cbn [insert_len]; [repeat constructor|]. destruct (zpair_lt y x) eqn:E.
  - constructor; [apply IH; intros H; apply Hn; now right|]. eapply Permutation_Forall; [symmetry; apply insert_len_perm|]. constructor; [now apply zpair_lt_iff|exact Hf].
  - assert (Hlt : zlt x y). { apply not_true_iff_false in E. rewrite zpair_lt_iff in E. unfold zlt in *. destruct x as [a b], y as [c d]. cbn [fst snd] in *. destruct (Z.eq_dec a c) as [->|]; [|lia]. destruct (Z.eq_dec b d) as [->|]; [exfalso; apply Hn; now left|lia]. }
    constructor; [now constructor|]. constructor; [exact Hlt|]. eapply Forall_impl; [|exact Hf]. intros z Hz. unfold zlt in *. lia.
Qed.
Lemma sort_lens_sorted l : NoDup l -> StronglySorted zlt (sort_lens l).
Proof. induction 1 as [|x l Hn Hnd IH]; cbn [sort_lens]; [constructor|]. apply insert_len_sorted; [|exact IH]. intros H. apply Hn. eapply Permutation_in; [apply sort_lens_perm|exact H]. Qed.
Lemma sorted_split l1 l2 a b : StronglySorted zlt (l1 ++ l2) -> In a l1 -> In b l2 -> zlt a b.
Proof. induction l1 as [|x l1 IH]; intros Hs Ha Hb; [destruct Ha|]. inversion Hs as [|? ? Hs' Hf]; subst. destruct Ha as [<-|Ha]; [|now apply IH]. rewrite Forall_forall in Hf. apply Hf. apply in_app_iff. now right. Qed.

Lemma total_perm len l l' : Permutation l l' -> total len l = total len l'.
Proof. induction 1; unfold total in *; cbn [fold_right]; lia. Qed.
Lemma mean_perm len l l' : Permutation l l' -> mean len l = mean len l'.
Proof. intros H. unfold mean. now rewrite (total_perm _ _ _ H), (Permutation_length H). Qed.
Lemma sum_lens_total len ps : (forall p, In p ps -> fst p = len (snd p)) -> sum_lens ps = total len (map snd ps).
Proof. induction ps as [|p ps IH]; intros H; cbn; [reflexivity|]. unfold sum_lens, total in IH. rewrite IH by (intros q Hq; apply H; now right). rewrite (H p (or_introl eq_refl)). reflexivity. Qed.
Lemma cmp_mean_spec len sorted m num : (forall p, In p sorted -> fst p = len (snd p)) ->
  let q := mean len (map snd (firstn (Z.to_nat num) sorted)) in
  (cmp_mean sorted m num < 0 <-> (q < m)%Q) /\ (cmp_mean sorted m num = 0 <-> (q == m)%Q) /\ (0 < cmp_mean sorted m num <-> (m < q)%Q).
Proof.
  intros H q. unfold cmp_mean. rewrite (sum_lens_total len) by (intros p Hp; apply H; now apply In_firstn in Hp). subst q. unfold mean. rewrite map_length. set (q := (inject_Z _ / inject_Z _)%Q).
  destruct (Qcompare_spec q m); cbn [sign_of]; (split; [|split]); split; intros; try lia; try lra.
Qed.

Lemma filter_epoch_spec m seq_order len out : NoDup seq_order -> ~ (m == 0)%Q -> filter_epoch (Some m) seq_order len = Ok out ->
  subsequence out seq_order /\ out <> [] /\
  (forall i j, In i out -> In j seq_order -> ~ In j out -> shorter len i j) /\
  ((mean len out == m)%Q \/ (out = seq_order /\ (mean len out < m)%Q) \/
   ((m < mean len out)%Q /\ exists longest others, Permutation out (longest :: others) /\ (forall i, In i others -> shorter len i longest) /\ (others = [] \/ (mean len others < m)%Q))).
Proof.
  intros Hnd Hm H. unfold filter_epoch in H. destruct (Qeq_bool m 0) eqn:E0; [apply Qeq_bool_iff in E0; contradiction|].
  set (pairs := map (fun i => (len i, i)) seq_order) in *. pose proof (sort_lens_perm pairs) as Hp.
  assert (Hndp : NoDup pairs) by (unfold pairs; apply NoDup_map_inj; [intros a b _ _ E; congruence|exact Hnd]).
  pose proof (sort_lens_sorted pairs Hndp) as Hs. set (s := sort_lens pairs) in *.
  assert (Hfst : forall p, In p s -> fst p = len (snd p)). { intros p Hin. eapply Permutation_in in Hin; [|exact Hp]. unfold pairs in Hin. apply in_map_iff in Hin. destruct Hin as (i&<-&_). reflexivity. }
  assert (Hmap : Permutation (map snd s) seq_order). { eapply Permutation_trans; [apply Permutation_map; exact Hp|]. unfold pairs. rewrite map_map. cbn [snd]. rewrite map_id. reflexivity. }
  clearbody s. destruct s as [|p0 s0] eqn:Es; [discriminate|]. rewrite <- Es in *. assert (Hlen : (0 < length s)%nat) by (rewrite Es; cbn; lia). clear Es p0 s0.
  apply bind_Ok in H. destruct H as ([r ps]&Hb&H). apply Ok_inj in H. cbn [fst] in H.
  destruct (binary_search_spec (S (Z.to_nat (Z.of_nat (length s) + 1 - 1))) (cmp_mean s m) 1 (Z.of_nat (length s) + 1) ltac:(lia) ltac:(lia)) as (r'&ps'&E&A&_&_&D&_).
  unfold binary_search_any in Hb. rewrite E in Hb. apply Ok_inj in Hb. injection Hb as -> ->. specialize (A ltac:(lia)).
  set (sel := map snd (firstn (Z.to_nat r) s)) in *.
  assert (Hndm : NoDup (map snd s)) by (eapply Permutation_NoDup; [symmetry; exact Hmap|exact Hnd]).
  assert (Hsel_nd : NoDup sel). { unfold sel. rewrite <- (firstn_skipn (Z.to_nat r) s), map_app in Hndm. now apply NoDup_app_l in Hndm. }
  assert (Hsel_in : forall i, In i sel -> In i seq_order). { intros i Hi. eapply Permutation_in; [exact Hmap|]. unfold sel in Hi. apply in_map_iff in Hi. destruct Hi as (p&<-&Hi). apply in_map. now apply In_firstn in Hi. }
  assert (Hout : Permutation out sel). { subst out. apply NoDup_Permutation; [now apply NoDup_filter|exact Hsel_nd|]. intros i. rewrite filter_In, memz_In. split; [tauto|auto]. }
  split; [exists (fun i => memz i sel); now symmetry|]. split.
  { intros ->. apply Permutation_nil in Hout. unfold sel in Hout. apply map_eq_nil in Hout. assert (Hz : length (firstn (Z.to_nat r) s) = 0%nat) by now rewrite Hout. rewrite firstn_length in Hz. lia. }
  split.
  { intros i j Hi Hj Hnj. assert (Hi' : In i sel) by (eapply Permutation_in; eauto). unfold sel in Hi'. apply in_map_iff in Hi'. destruct Hi' as (p&<-&Hpi). 
    eapply Permutation_in in Hj; [|symmetry; exact Hmap]. apply in_map_iff in Hj. destruct Hj as (q&<-&Hq). rewrite <- (firstn_skipn (Z.to_nat r) s) in Hq. apply in_app_iff in Hq. destruct Hq as [Hq|Hq].
    - exfalso. apply Hnj. eapply Permutation_in; [symmetry; exact Hout|]. unfold sel. now apply in_map.
    - assert (Hlt : zlt p q) by (rewrite <- (firstn_skipn (Z.to_nat r) s) in Hs; eapply sorted_split; eauto). unfold zlt in Hlt. rewrite (Hfst p) in Hlt by (eapply In_firstn; eassumption). rewrite (Hfst q) in Hlt by (eapply In_skipn; eassumption). exact Hlt. }
  rewrite (mean_perm _ _ _ Hout). destruct D as [[_ D]|[D1 D2]]; [left; now apply (cmp_mean_spec len s m r Hfst)|]. right.
  destruct (Z.eq_dec r (Z.of_nat (length s) + 1)) as [Hr|Hr].
  - left. assert (Hall : sel = map snd s) by (unfold sel; now rewrite firstn_all2 by lia). split.
    + subst out. apply filter_all. intros i Hi. apply memz_In. rewrite Hall. eapply Permutation_in; [symmetry; exact Hmap|exact Hi].
    + rewrite Hall. specialize (D2 ltac:(lia)). apply (cmp_mean_spec len s m (r - 1) Hfst) in D2. rewrite firstn_all2 in D2 by lia. exact D2.
  - right. specialize (D1 ltac:(lia)). split; [now apply (cmp_mean_spec len s m r Hfst)|].
    destruct (nth_error s (Z.to_nat (r - 1))) as [p|] eqn:Ep; [|apply nth_error_None in Ep; lia]. exists (snd p), (map snd (firstn (Z.to_nat (r - 1)) s)).
    assert (Hf : firstn (Z.to_nat r) s = firstn (Z.to_nat (r - 1)) s ++ [p]).
    { replace (Z.to_nat r) with (S (Z.to_nat (r - 1))) by lia. clear - Ep. revert Ep. generalize (Z.to_nat (r - 1)) as n. intros n. revert s. induction n as [|n IH]; intros [|x s] Ep; try discriminate; cbn in Ep; [injection Ep as ->; reflexivity|]. cbn [firstn app]. f_equal. now apply IH. }
    split; [|split].
    + rewrite Hout. unfold sel. rewrite Hf, map_app. cbn [map]. symmetry. apply Permutation_cons_append.
    + intros i Hi. apply in_map_iff in Hi. destruct Hi as (q&<-&Hq). assert (Hlt : zlt q p). { rewrite <- (firstn_skipn (Z.to_nat r) s), Hf, <- app_assoc in Hs. eapply sorted_split; [exact Hs|exact Hq|]. now left. }
      unfold zlt in Hlt. rewrite (Hfst p) in Hlt by (eapply nth_error_In; eassumption). rewrite (Hfst q) in Hlt by (eapply In_firstn; eassumption). exact Hlt.
    + destruct (Z.eq_dec r 1) as [->|Hr1]; [left; reflexivity|]. right. specialize (D2 ltac:(lia)). now apply (cmp_mean_spec len s m (r - 1) Hfst) in D2.
Qed.

Lemma subsequence_refl l : subsequence l l.
Proof. exists (fun _ => true). induction l as [|x l IH]; cbn; [reflexivity|]. now rewrite <- IH. Qed.
Lemma subsequence_trans a b c : subsequence a b -> subsequence b c -> subsequence a c.
Proof. intros [p ->] [q ->]. exists (fun i => q i && p i). induction c as [|x c IH]; cbn; [reflexivity|]. destruct (q x) eqn:E; cbn; rewrite IH; reflexivity. Qed.
Lemma filter_epoch_sub m seq_order len out : filter_epoch m seq_order len = Ok out -> subsequence out seq_order.
Proof.
  unfold filter_epoch. destruct m as [m|]; [|intros H; apply Ok_inj in H; subst; apply subsequence_refl]. destruct (Qeq_bool m 0); [intros H; apply Ok_inj in H; subst; apply subsequence_refl|].
  cbv zeta. destruct (sort_lens _) as [|p s]; [discriminate|]. intros H. apply bind_Ok in H. destruct H as (b&_&H). apply Ok_inj in H. subst. eexists. reflexivity.
Qed.
Lemma filter_loop_sub l ep seq_order len out : filter_loop l ep seq_order len = Ok out -> subsequence out seq_order.
Proof.
  revert seq_order. induction l as [|[[s e] m] l IH]; intros seq_order; cbn [filter_loop]; [intros H; apply Ok_inj in H; subst; apply subsequence_refl|].
  intros H. apply bind_Ok in H. destruct H as ([]&_&H). apply bind_Ok in H. destruct H as (o&Ho&H). eapply subsequence_trans; [exact (IH _ H)|].
  destruct (_ && _); [now apply filter_epoch_sub in Ho|apply Ok_inj in Ho; subst; apply subsequence_refl].
Qed.

Definition in_rangeb (ep : Z) (x : epochs_key * option Q) : bool :=
  (match fst (fst x) with None => 1 | Some s => s end <=? ep) && (ep <=? match snd (fst x) with None => maxsize | Some e => if e =? -1 then maxsize else e end).
Lemma in_rangeb_spec ep x : ep <= maxsize -> in_rangeb ep x = true <-> range_epochs (fst x) ep.
Proof.
  intros Hm. destruct x as [[s e] m]. unfold in_rangeb, range_epochs. cbn [fst snd]. rewrite andb_true_iff, !Z.leb_le.
  assert (H1 : (match s with None => 1 | Some s => s end <= ep) <-> match s with None => 1 <= ep | Some s => s <= ep end) by (destruct s; reflexivity). rewrite H1.
  assert (H2 : (ep <= match e with None => maxsize | Some e => if e =? -1 then maxsize else e end) <-> match e with None => True | Some e => e = -1 \/ ep <= e end).
  { destruct e as [e|]; [|tauto]. destruct (Z.eqb_spec e (-1)); intuition lia. }
  rewrite H2. reflexivity.
Qed.
Lemma insert_key_perm {V} (x : epochs_key * V) l l' : insert_key x l = Ok l' -> Permutation l' (x :: l).
Proof.
  revert l'. induction l as [|y l IH]; intros l' H; cbn [insert_key] in H; [apply Ok_inj in H; subst; reflexivity|].
  apply bind_Ok in H. destruct H as (b&_&H). destruct b; [|apply Ok_inj in H; subst; reflexivity].
  apply bind_Ok in H. destruct H as (r&Hr&H). apply Ok_inj in H. subst. rewrite (IH _ Hr). apply perm_swap.
Qed.
Lemma sort_keys_perm {V} (l l' : list (epochs_key * V)) : sort_keys l = Ok l' -> Permutation l' l.
Proof.
  revert l'. induction l as [|y l IH]; intros l' H; cbn [sort_keys] in H; [apply Ok_inj in H; subst; reflexivity|].
  apply bind_Ok in H. destruct H as (s&Hs&H). rewrite (insert_key_perm _ _ _ H). now rewrite (IH _ Hs).
Qed.
Lemma filter_perm {A} (f : A -> bool) l l' : Permutation l l' -> Permutation (filter f l) (filter f l').
Proof.
  induction 1 as [|x l l' H IH|x y l|l l' l'' H1 IH1 H2 IH2]; cbn [filter].
  - constructor.
  - destruct (f x); [now constructor|assumption].
  - destruct (f x), (f y); try reflexivity. apply perm_swap.
  - now transitivity (filter f l').
Qed.
Lemma filter_loop_ranges l ep len : forall seq_order out, filter_loop l ep seq_order len = Ok out -> filter_loop (filter (in_rangeb ep) l) ep seq_order len = Ok out.
Proof.
  induction l as [|[[s e] m] l IH]; intros seq_order out H; [exact H|]. cbn [filter_loop] in H. cbv zeta in H. apply bind_Ok in H. destruct H as ([]&Ha&H). apply bind_Ok in H. destruct H as (o&Ho&H). cbn [filter].
  destruct (in_rangeb ep _) eqn:E0; pose proof E0 as E; unfold in_rangeb in E; cbn [fst snd] in E; rewrite E in Ho.
  - cbn [filter_loop]. cbv zeta. rewrite E. rewrite Ho. apply assert_Ok in Ha. rewrite Ha. cbn [bind assert_]. apply IH, H.
  - apply Ok_inj in Ho. subst. apply IH, H.
Qed.
Lemma epoch_filter_none opts ep seq_order len out : ep <= maxsize -> epoch_filter opts (Some ep) seq_order len = Ok out -> (forall x, In x opts -> ~ range_epochs (fst x) ep) -> out = seq_order.
Proof.
  intros Hm H Hn. cbn [epoch_filter] in H. apply bind_Ok in H. destruct H as (l&Hl&H). apply filter_loop_ranges in H. apply sort_keys_perm in Hl.
  assert (E : filter (in_rangeb ep) l = []).
  { apply Permutation_nil. rewrite (filter_perm _ _ _ Hl). clear Hl. induction opts as [|x opts IH]; [constructor|]. cbn [filter]. destruct (in_rangeb ep x) eqn:E; [|apply IH; intros y Hy; apply Hn; now right].
    exfalso. apply (Hn x (or_introl eq_refl)). now apply in_rangeb_spec. }
  rewrite E in H. now apply Ok_inj in H.
Qed.
Lemma epoch_filter_one opts1 r m opts2 ep seq_order len out : ep <= maxsize -> epoch_filter (opts1 ++ (r, m) :: opts2) (Some ep) seq_order len = Ok out -> range_epochs r ep -> (forall x, In x (opts1 ++ opts2) -> ~ range_epochs (fst x) ep) -> filter_epoch m seq_order len = Ok out.
Proof.
  intros Hm H Hr Hn. cbn [epoch_filter] in H. apply bind_Ok in H. destruct H as (l&Hl&H). apply filter_loop_ranges in H. apply sort_keys_perm in Hl.
  assert (E : forall o, (forall x, In x o -> ~ range_epochs (fst x) ep) -> filter (in_rangeb ep) o = []).
  { clear - Hm. intros o Hn. induction o as [|x o IH]; [reflexivity|]. cbn [filter]. destruct (in_rangeb ep x) eqn:E; [|apply IH; intros y Hy; apply Hn; now right]. exfalso. apply (Hn x (or_introl eq_refl)). now apply in_rangeb_spec. }
  assert (Ep : Permutation [(r, m)] (filter (in_rangeb ep) l)).
  { rewrite (filter_perm _ _ _ Hl), filter_app. cbn [filter]. rewrite (proj2 (in_rangeb_spec ep (r, m) Hm) Hr). rewrite (E opts1), (E opts2) by (intros x Hx; apply Hn, in_or_app; tauto). reflexivity. }
  apply Permutation_length_1_inv in Ep. rewrite Ep in H. destruct r as [s e]. cbn [filter_loop] in H. apply bind_Ok in H. destruct H as ([]&_&H). apply bind_Ok in H. destruct H as (o&Ho&H). apply Ok_inj in H. subst o.
  apply (in_rangeb_spec ep ((s, e), m) Hm) in Hr. unfold in_rangeb in Hr. cbn [fst snd] in Hr. rewrite Hr in Ho. exact Ho.
Qed.

(** the ranges in order *)
Lemma filter_loop_filtered l ep len : ep <= maxsize -> forall o out, filter_loop l ep o len = Ok out -> filtered ep len l o out.
Proof.
  intros Hm. induction l as [|[[s e] m] l IH]; intros o out H; cbn [filter_loop] in H; [apply Ok_inj in H; subst; constructor|].
  cbv zeta in H. apply bind_Ok in H. destruct H as ([]&_&H). apply bind_Ok in H. destruct H as (o'&Ho&H).
  pose proof (in_rangeb_spec ep ((s, e), m) Hm) as G. cbn [fst] in G. unfold in_rangeb in G. cbn [fst snd] in G. destruct (_ && _).
  - eapply filtered_in; [now apply G|exact Ho|now apply IH].
  - apply Ok_inj in Ho. subst o'. apply filtered_out; [|now apply IH]. intros K. apply G in K. discriminate.
Qed.
Lemma key_lt_numeric s e s' e' : key_lt (Some s, Some e) (Some s', Some e') = Ok ((s <? s') || ((s =? s') && (e <? e'))).
Proof.
  unfold key_lt. cbn [fst snd opt_eqb opt_lt]. destruct (Z.eqb_spec s s') as [->|H]; cbn [andb].
  - rewrite Z.ltb_irrefl. cbn [orb]. destruct (Z.eqb_spec e e') as [->|H]; [now rewrite Z.ltb_irrefl|reflexivity].
  - now rewrite orb_false_r.
Qed.
Lemma range_le_trans a b c : range_le a b -> range_le b c -> range_le a c.
Proof.
  intros (s&e&s'&e'&->&->&H) (s2&e2&s3&e3&E&->&H2). injection E as <- <-. exists s, e, s3, e3. split; [reflexivity|]. split; [reflexivity|]. lia.
Qed.
Lemma insert_key_sorted {V} (x : epochs_key * V) l : numeric (fst x) -> Forall (fun y => numeric (fst y)) l ->
  StronglySorted (fun a b => range_le (fst a) (fst b)) l -> exists l', insert_key x l = Ok l' /\ StronglySorted (fun a b => range_le (fst a) (fst b)) l'.
Proof.
  destruct x as [kx vx]. cbn [fst]. intros (s&e&Ex) Hn Hs. induction Hs as [|y l Hs IH Hf]; cbn [insert_key]; [eexists; split; [reflexivity|repeat constructor]|].
  apply Forall_cons_iff in Hn. destruct Hn as [(s'&e'&Ey) Hn]. destruct (IH Hn) as (l'&El&Hl). destruct y as [ky vy]. cbn [fst] in *. subst kx ky. rewrite key_lt_numeric. cbn [bind].
  destruct ((s' <? s) || ((s' =? s) && (e' <? e))) eqn:E.
  - rewrite El. cbn [bind]. eexists. split; [reflexivity|]. constructor; [exact Hl|]. eapply Permutation_Forall; [symmetry; exact (insert_key_perm _ _ _ El)|]. constructor; [|exact Hf].
    exists s', e', s, e. split; [reflexivity|]. split; [reflexivity|]. lia.
  - eexists. split; [reflexivity|].
    assert (Hxy : range_le (Some s, Some e) (Some s', Some e')) by (exists s, e, s', e'; split; [reflexivity|]; split; [reflexivity|]; lia).
    constructor; [constructor; [exact Hs|exact Hf]|]. constructor; [exact Hxy|]. eapply Forall_impl; [|exact Hf]. intros z Hz. exact (range_le_trans _ _ _ Hxy Hz).
Qed.
Lemma sort_keys_sorted {V} (l : list (epochs_key * V)) : Forall (fun y => numeric (fst y)) l ->
  exists l', sort_keys l = Ok l' /\ StronglySorted (fun a b => range_le (fst a) (fst b)) l'.
Proof.
  induction 1 as [|x l Hx Hl IH]; cbn [sort_keys]; [eexists; split; [reflexivity|constructor]|]. destruct IH as (l'&E&Hs). rewrite E. cbn [bind].
  apply insert_key_sorted; [exact Hx| |exact Hs]. eapply Permutation_Forall; [symmetry; exact (sort_keys_perm _ _ E)|exact Hl].
Qed.
Lemma filter_epoch_total m o len : o <> [] -> NoDup o -> exists out, filter_epoch m o len = Ok out /\ out <> [] /\ NoDup out.
Proof.
  intros Hne Hnd. assert (G : exists out, filter_epoch m o len = Ok out).
  { unfold filter_epoch. destruct m as [m|]; [|eauto]. destruct (Qeq_bool m 0); [eauto|]. cbv zeta.
    destruct (sort_lens (map (fun i => (len i, i)) o)) as [|p s] eqn:Es.
    { exfalso. pose proof (Permutation_length (sort_lens_perm (map (fun i => (len i, i)) o))) as Hl. rewrite Es, map_length in Hl. destruct o; [congruence|discriminate]. }
    unfold binary_search_any. match goal with |- context [binary_search ?f ?c ?l ?h] => destruct (binary_search_spec f c l h ltac:(lia) ltac:(lia)) as (r&ps&->&_) end. cbn [bind]. eauto. }
  destruct G as (out&E). exists out. split; [exact E|]. split.
  - destruct m as [m|]; [|cbn in E; apply Ok_inj in E; congruence]. destruct (Qeq_bool m 0) eqn:E0.
    + unfold filter_epoch in E. rewrite E0 in E. apply Ok_inj in E. congruence.
    + apply (filter_epoch_spec m o len out Hnd); [|exact E]. intros G. apply Qeq_bool_iff in G. congruence.
  - destruct (filter_epoch_sub _ _ _ _ E) as [p ->]. now apply NoDup_filter.
Qed.
Lemma filter_loop_total l ep len : Forall (fun y => valid_range (fst y) /\ match fst (fst y) with Some s => s <= maxsize | None => True end) l ->
  forall o, o <> [] -> NoDup o -> exists out, filter_loop l ep o len = Ok out.
Proof.
  induction 1 as [|[[s e] m] l [(s0&e0&E&H1&H2) H3] Hl IH]; intros o Hne Hnd; cbn [filter_loop]; [eauto|]. cbn [fst] in E, H3. injection E as -> ->.
  cbv zeta. assert (Ha : (1 <=? s0) && (s0 <=? (if e0 =? -1 then maxsize else e0)) = true).
  { apply andb_true_iff. split; [now apply Z.leb_le|]. apply Z.leb_le. destruct (Z.eqb_spec e0 (-1)); [exact H3|]. destruct H2; [contradiction|assumption]. }
  rewrite Ha. cbn [assert_ bind]. destruct ((s0 <=? ep) && (ep <=? (if e0 =? -1 then maxsize else e0))).
  - destruct (filter_epoch_total m o len Hne Hnd) as (o'&->&Hne'&Hnd'). cbn [bind]. now apply IH.
  - cbn [bind]. now apply IH.
Qed.
Lemma filter_loop_valid l ep len : forall o out, filter_loop l ep o len = Ok out -> Forall (fun y => numeric (fst y) -> valid_range (fst y)) l.
Proof.
  induction l as [|[[s e] m] l IH]; intros o out H; cbn [filter_loop] in H; [constructor|]. cbv zeta in H. apply bind_Ok in H. destruct H as ([]&Ha&H). apply bind_Ok in H. destruct H as (o'&_&H).
  constructor; [|eapply IH; exact H]. cbn [fst]. intros (s0&e0&E). injection E as -> ->. apply assert_Ok, andb_true_iff in Ha. rewrite !Z.leb_le in Ha. exists s0, e0. split; [reflexivity|]. split; [lia|].
  destruct (Z.eqb_spec e0 (-1)); [now left|right; lia].
Qed.

(** ranges open at the start *)
Lemma sort_keys_open {V} (l : list (epochs_key * V)) : Forall (fun y => exists e, fst y = (None, Some e)) l -> exists l', sort_keys l = Ok l'.
Proof.
  induction 1 as [|x l (e&Ex) Hl IH]; cbn [sort_keys]; [eauto|]. destruct IH as (l'&E). rewrite E. cbn [bind].
  assert (Hl' : Forall (fun y : epochs_key * V => exists e, fst y = (None, Some e)) l') by (eapply Permutation_Forall; [symmetry; exact (sort_keys_perm _ _ E)|exact Hl]).
  clear - Ex Hl'. destruct x as [kx vx]. cbn [fst] in Ex. subst kx. induction Hl' as [|[ky vy] l (e'&Ey) Hl IH]; cbn [insert_key fst]; [eauto|]. cbn [fst] in Ey. subst ky.
  assert (Ek : exists b, key_lt (None, Some e') (None, Some e) = Ok b) by (unfold key_lt; cbn; destruct (e' =? e); cbn; eauto).
  destruct Ek as (b&->). cbn [bind]. destruct b; [|eauto]. destruct IH as (r&->). cbn. eauto.
Qed.
Lemma filter_loop_open l ep len : Forall (fun y => exists e, fst y = (None, Some e) /\ (e = -1 \/ 1 <= e)) l ->
  forall o, o <> [] -> NoDup o -> exists out, filter_loop l ep o len = Ok out.
Proof.
  induction 1 as [|[[s e] m] l (e0&E&H2) Hl IH]; intros o Hne Hnd; cbn [filter_loop]; [eauto|]. cbn [fst] in E. injection E as -> ->.
  cbv zeta. assert (Ha : (1 <=? 1) && (1 <=? (if e0 =? -1 then maxsize else e0)) = true).
  { apply andb_true_iff. split; [reflexivity|]. apply Z.leb_le. destruct (Z.eqb_spec e0 (-1)); [unfold maxsize; lia|]. destruct H2; [contradiction|assumption]. }
  rewrite Ha. cbn [assert_ bind]. destruct ((1 <=? ep) && (ep <=? (if e0 =? -1 then maxsize else e0))).
  - destruct (filter_epoch_total m o len Hne Hnd) as (o'&Eo&Hn&Hd). rewrite Eo. cbn [bind]. now apply IH.
  - cbn [bind]. now apply IH.
Qed.
