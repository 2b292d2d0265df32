From Verif Require Import Base ListLemmas UniqModel UniqSpec.
Local Open Scope Z_scope.

(** * uniq *)
Lemma wrap_zero m a b : 0 < m -> 0 <= a < m -> 0 <= b < m -> ((a - b) mod m =? 0) = (a =? b).
Proof.
  intros Hm Ha Hb. destruct (Z.eqb_spec a b) as [->|Hne]; [rewrite Z.sub_diag, Z.mod_0_l by lia; reflexivity|]. apply Z.eqb_neq. intros E. apply Z.mod_divide in E; [|lia]. destruct E as [q E]. assert (q = 0) by nia. nia.
Qed.
Lemma uniq_from_spec m prev l : 0 < m -> 0 <= prev < m -> (forall x, In x l -> 0 <= x < m) ->
  exists n runs, repeat prev (S n) ++ expand runs = prev :: l /\ map fst runs = uniq_from m prev l /\ no_repeat (prev :: uniq_from m prev l).
Proof.
  intros Hm. revert prev. induction l as [|x l IH]; intros prev Hp Hl; cbn [uniq_from].
  - exists O, []. cbn. auto.
  - rewrite wrap_zero by (auto; apply Hl; now left). destruct (IH x) as (n&runs&H1&H2&H3); [apply Hl; now left|intros y Hy; apply Hl; now right|]. destruct (Z.eqb_spec x prev) as [->|Hne].
    + exists (S n), runs. split; [|split; [exact H2|exact H3]]. change (repeat prev (S (S n))) with (prev :: repeat prev (S n)). cbn [app]. f_equal. exact H1.
    + exists O, ((x, n) :: runs). split; [|split].
      * cbn [repeat app]. f_equal. unfold expand in *. cbn [map concat fst snd]. exact H1.
      * cbn [map fst]. now rewrite H2.
      * cbn [no_repeat] in *. split; [congruence|exact H3].
Qed.
Lemma uniq_spec m l : 0 < m -> (forall x, In x l -> 0 <= x < m) -> collapses l (uniq m l).
Proof.
  intros Hm Hl. destruct l as [|x l]; cbn [uniq]; [exists []; cbn; auto|]. destruct (uniq_from_spec m x l Hm) as (n&runs&H1&H2&H3); [apply Hl; now left|intros y Hy; apply Hl; now right|].
  exists ((x, n) :: runs). split; [exact H1|]. split; [cbn; now rewrite H2|exact H3].
Qed.
(** The collapsed list is unique. *)
Lemma expand_head x n runs : expand ((x, n) :: runs) = x :: (repeat x n ++ expand runs).
Proof. reflexivity. Qed.
Lemma collapses_fun l : forall out out', collapses l out -> collapses l out' -> out = out'.
Proof.
  intros out out' (r&E&M&N) (r'&E'&M'&N'). revert l r' out out' E M N E' M' N'. induction r as [|[x n] r IH]; intros l r' out out' E M N E' M' N'.
  - cbn in E. subst l. cbn in M. subst out. destruct r' as [|[x n] r']; [now subst|discriminate].
  - destruct r' as [|[x' n'] r']; [subst l; discriminate|]. rewrite expand_head in E, E'. subst l. injection E' as <- E'. cbn [map fst] in M, M'. subst out out'. f_equal.
    assert (Hhd : forall runs, no_repeat (x' :: map fst runs) -> match expand runs with y :: _ => x' <> y | [] => True end).
    { intros [|[y k] runs]; [intros _; exact I|]. intros [H _]. exact H. }
    pose proof (Hhd _ N) as H1. pose proof (Hhd _ N') as H2. destruct N as [_ N], N' as [_ N'].
    assert (Hn : forall a b t u, repeat x' a ++ t = repeat x' b ++ u -> match t with y :: _ => x' <> y | [] => True end -> match u with y :: _ => x' <> y | [] => True end -> t = u).
    { induction a as [|a IHa]; intros b t u Hab Ht Hu; destruct b as [|b]; cbn [repeat app] in Hab; [exact Hab|subst t; congruence|subst u; congruence|]. injection Hab as Hab. eapply IHa; eauto. }
    specialize (Hn _ _ _ _ E' H2 H1). eapply IH; eauto.
Qed.

Lemma uniq_generic_loop_spec l visited done out : first_occurrences done out -> (forall x, In x visited <-> In x done) -> first_occurrences (done ++ l) (out ++ uniq_generic_loop visited l).
Proof.
  revert visited done out. induction l as [|x l IH]; intros visited done out H Hv; cbn [uniq_generic_loop]; [now rewrite !app_nil_r|].
  assert (Hb : visited_has x visited = true <-> In x done).
  { rewrite <- Hv. unfold visited_has. rewrite existsb_exists. split; [intros (y&Hy&E); apply Z.eqb_eq in E; now subst|intros Hx; exists x; split; [exact Hx|apply Z.eqb_refl]]. }
  replace (done ++ x :: l)%list with ((done ++ [x]) ++ l)%list by now rewrite <- app_assoc. destruct (visited_has x visited).
  - apply IH; [apply fo_old; [exact H|now apply Hb]|]. intros y. rewrite Hv, in_app_iff. cbn. split; [now left|]. intros [Hy|[<-|[]]]; [exact Hy|now apply Hb].
  - replace (out ++ x :: uniq_generic_loop (x :: visited) l)%list with ((out ++ [x]) ++ uniq_generic_loop (x :: visited) l)%list by now rewrite <- app_assoc.
    apply IH; [apply fo_new; [exact H|]; intros Hx; apply Hb in Hx; discriminate|]. intros y. cbn. rewrite Hv, in_app_iff. cbn. tauto.
Qed.

(** * find_ranges *)
Lemma range_snoc s k : s <= k -> range (s, k + 1) = (range (s, k) ++ [k])%list.
Proof. intros H. unfold range. cbn [fst snd]. replace (Z.to_nat (k + 1 - s)) with (S (Z.to_nat (k - s))) by lia. rewrite seq_S, map_app. cbn. f_equal. f_equal. lia. Qed.
Lemma gaps_snoc rs s e s' e' : gaps (rs ++ [(s, e)]) -> e < s' -> s' < e' -> gaps ((rs ++ [(s, e)]) ++ [(s', e')]).
Proof.
  induction rs as [|[a b] rs IH]; cbn [app gaps]; [intuition|]. intros (H1&H2&H3) H4 H5. split; [exact H1|]. split; [|now apply IH]. destruct rs as [|[c d] rs]; cbn in *; exact H2.
Qed.
Lemma gaps_widen rs s e e' : gaps (rs ++ [(s, e)]) -> s < e' -> gaps (rs ++ [(s, e')]).
Proof. induction rs as [|[a b] rs IH]; cbn [app gaps]; [intuition|]. intros (H1&H2&H3) H4. split; [exact H1|]. split; [|now apply IH]. destruct rs as [|[c d] rs]; cbn in *; exact H2. Qed.
Lemma ranges_loop_spec ls : forall done s e, gaps (done ++ [(s, e)]) -> strictly_ascending ls -> (match ls with k :: _ => e <= k | [] => True end) ->
  exists rs, ranges_loop ls done (s, e) = Ok rs /\ gaps rs /\ concat (map range rs) = (concat (map range (done ++ [(s, e)])) ++ ls)%list.
Proof.
  induction ls as [|k ls IH]; intros done s e Hg Ha Hk; cbn [ranges_loop].
  - eexists. split; [reflexivity|]. split; [exact Hg|now rewrite app_nil_r].
  - cbn [snd fst]. unfold assert_. assert (E : (k >=? e) = true) by (rewrite Z.geb_leb; now apply Z.leb_le). rewrite E. cbn [bind]. destruct Ha as [Ha1 Ha2].
    assert (Hse : s < e). { clear - Hg. induction done as [|[a b] done IH]; cbn in Hg; [tauto|]. apply IH. tauto. }
    destruct (Z.eqb_spec k e) as [->|Hne].
    + destruct (IH done s (e + 1)) as (rs&H1&H2&H3); [eapply gaps_widen; [exact Hg|lia]|exact Ha2|destruct ls; [exact I|lia]|]. exists rs. split; [exact H1|]. split; [exact H2|]. rewrite H3, !map_app, !concat_app. cbn [map concat]. rewrite range_snoc, !app_nil_r, <- !app_assoc by lia. reflexivity.
    + destruct (IH (done ++ [(s, e)])%list k (k + 1)) as (rs&H1&H2&H3); [apply gaps_snoc; [exact Hg|lia|lia]|exact Ha2|destruct ls; [exact I|lia]|]. exists rs. split; [exact H1|]. split; [exact H2|]. rewrite H3, !map_app, !concat_app. cbn [map concat]. rewrite range_snoc by lia. unfold range at 3. cbn [fst snd]. rewrite Z.sub_diag. cbn [Z.to_nat seq map app]. rewrite !app_nil_r, <- !app_assoc. reflexivity.
Qed.
Lemma ranges_loop_fail ls : forall done s e, ranges_loop ls done (s, e) = Err AssertionError \/ ((match ls with k :: _ => e <= k | [] => True end) /\ strictly_ascending ls).
Proof.
  induction ls as [|k ls IH]; intros done s e; cbn [ranges_loop snd fst]; [right; cbn; auto|]. rewrite Z.geb_leb. destruct (Z.leb_spec e k) as [Hk|Hk]; [|left; reflexivity]. unfold assert_. cbn [bind].
  destruct (k =? e); match goal with |- context [ranges_loop ls ?d (?a, ?b)] => destruct (IH d a b) as [H|[H1 H2]] end; auto; right; (split; [exact Hk|]); cbn [strictly_ascending]; (split; [destruct ls; [exact I|lia]|exact H2]).
Qed.
Lemma find_ranges_spec ls : strictly_ascending ls -> exists rs, find_ranges ls = Ok rs /\ gaps rs /\ concat (map range rs) = ls.
Proof.
  destruct ls as [|k ls]; [intros _; exists []; cbn; auto|]. intros Ha. unfold find_ranges. cbn [ranges_loop snd fst]. rewrite Z.geb_leb, Z.leb_refl, Z.eqb_refl. unfold assert_. cbn [bind]. destruct Ha as [Ha1 Ha2].
  destruct (ranges_loop_spec ls [] k (k + 1)) as (rs&H1&H2&H3); [cbn; lia|exact Ha2|destruct ls; [exact I|lia]|]. exists rs. split; [exact H1|]. split; [exact H2|]. rewrite H3. cbn [app map concat]. rewrite range_snoc by lia. unfold range. cbn [fst snd]. rewrite Z.sub_diag. reflexivity.
Qed.
Lemma find_ranges_fail ls : ~ strictly_ascending ls -> find_ranges ls = Err AssertionError.
Proof. destruct ls as [|k ls]; intros H; [destruct H; exact I|]. unfold find_ranges. destruct (ranges_loop_fail (k :: ls) [] k k) as [E|[_ E]]; [exact E|contradiction]. Qed.

(** * slice_pad_zeros *)
Lemma nth_error_repeat {A} (x : A) n i : (i < n)%nat -> nth_error (repeat x n) i = Some x.
Proof. revert i. induction n as [|n IH]; intros [|i] H; [lia|lia|reflexivity|]. cbn. apply IH. lia. Qed.
Lemma slice_pad_zeros_spec {A} (zero : A) x b e : b <= e -> 0 <= e ->
  exists y, slice_pad_zeros zero x b e = Ok y /\ Z.of_nat (length y) = e - b /\
    forall i, 0 <= i < e - b -> nth_error y (Z.to_nat i) = Some (if (0 <=? b + i) && (b + i <? Z.of_nat (length x)) then nth (Z.to_nat (b + i)) x zero else zero).
Proof.
  intros Hbe He. unfold slice_pad_zeros. rewrite Z.geb_leb. destruct ((0 <=? b) && (Z.of_nat (length x) <=? b)) eqn:E1.
  - apply andb_true_iff in E1. destruct E1 as [E1 E2]. apply Z.leb_le in E1, E2. destruct (Z.ltb_spec (e - b) 0); [lia|]. eexists. split; [reflexivity|]. rewrite repeat_length. split; [lia|]. intros i Hi. rewrite nth_error_repeat by lia. destruct (Z.ltb_spec (b + i) (Z.of_nat (length x))); [lia|]. now rewrite andb_false_r.
  - assert (Hb : b < 0 \/ 0 <= b < Z.of_nat (length x)) by (apply andb_false_iff in E1; destruct E1 as [E1|E1]; apply Z.leb_gt in E1; lia). clear E1.
    set (pl := if b <? 0 then - b else 0). set (b' := if b <? 0 then 0 else b). rewrite !Z.gtb_ltb. set (e' := if Z.of_nat (length x) <? e then Z.of_nat (length x) else e). set (pr := if Z.of_nat (length x) <? e then e - Z.of_nat (length x) else 0).
    assert (H1 : 0 <= b' /\ 0 <= pl /\ b' - pl = b /\ (pl = 0 \/ b' = 0)) by (unfold b', pl; destruct (Z.ltb_spec b 0); lia).
    assert (H2 : 0 <= e' <= Z.of_nat (length x) /\ 0 <= pr /\ e' + pr = e /\ (pr = 0 \/ e' = Z.of_nat (length x))) by (unfold e', pr; destruct (Z.ltb_spec (Z.of_nat (length x)) e); lia).
    assert (H3 : b' <= e) by (unfold b'; destruct (Z.ltb_spec b 0); lia). assert (H4 : b' <= e') by lia. clearbody pl b' e' pr.
    rewrite Z.geb_leb. unfold assert_. assert (E : (b' <=? e) = true) by now apply Z.leb_le. rewrite E. cbn [bind]. eexists. split; [reflexivity|].
    assert (Hlen : length (pyslice x (Z.to_nat b') (Z.to_nat e')) = Z.to_nat (e' - b')) by (rewrite pyslice_length; lia).
    split; [rewrite !app_length, !repeat_length, Hlen; lia|]. intros i Hi. destruct (Z.lt_ge_cases i pl) as [Hi1|Hi1].
    + rewrite nth_error_app1 by (rewrite repeat_length; lia). rewrite nth_error_repeat by lia. destruct (Z.leb_spec 0 (b + i)); [lia|reflexivity].
    + rewrite nth_error_app2 by (rewrite repeat_length; lia). rewrite repeat_length. destruct (Z.lt_ge_cases (i - pl) (e' - b')) as [Hi2|Hi2].
      * rewrite nth_error_app1 by (rewrite Hlen; lia). destruct (Z.leb_spec 0 (b + i)); [|lia]. destruct (Z.ltb_spec (b + i) (Z.of_nat (length x))); [|lia]. cbn [andb].
        unfold pyslice. rewrite nth_error_firstn'. rewrite nth_error_skipn'. replace (Z.to_nat b' + (Z.to_nat i - Z.to_nat pl))%nat with (Z.to_nat (b + i)) by lia. assert (Elt : (Z.to_nat i - Z.to_nat pl <? Z.to_nat e' - Z.to_nat b')%nat = true) by (apply Nat.ltb_lt; lia). rewrite Elt. apply nth_error_nth'. lia.
      * rewrite nth_error_app2 by (rewrite Hlen; lia). rewrite nth_error_repeat by (rewrite Hlen; lia). destruct (Z.ltb_spec (b + i) (Z.of_nat (length x))); [lia|]. now rewrite andb_false_r.
Qed.
