From Verif Require Import Base PyDict PySort PySortProofs ListLemmas BpeModel BpeProofs LrProofs VocabModel VocabSpec.
From Coq Require Import Sorted.
Local Open Scope Z_scope.

(* ---------- order of strings ---------- *)
Lemma str_leb_not_after a : forall b, str_leb a b = true -> not_after a b.
Proof.
  induction a as [|x a IH]; intros b H; [left; now exists b|].
  destruct b as [|y b]; cbn [str_leb] in H; [discriminate|]. apply orb_true_iff in H. destruct H as [H|H].
  - right. exists [], x, y, a, b. split; [reflexivity|split; [reflexivity|]]. now apply Nat.ltb_lt.
  - apply andb_true_iff in H. destruct H as [He H]. apply Nat.eqb_eq in He. subst y. apply IH in H.
    destruct H as [(r&->)|(p&u&w&a'&b'&->&->&Hl)]; [left; now exists r|]. right. exists (x :: p), u, w, a', b'. auto.
Qed.
Lemma str_leb_refl a : str_leb a a = true.
Proof. induction a as [|x a IH]; [reflexivity|]. cbn. rewrite Nat.eqb_refl, IH. now rewrite orb_true_r. Qed.
Lemma str_leb_trans a : forall b c, str_leb a b = true -> str_leb b c = true -> str_leb a c = true.
Proof.
  induction a as [|x a IH]; intros [|y b] [|z c] H1 H2; try reflexivity; try discriminate.
  cbn [str_leb] in *. rewrite orb_true_iff, andb_true_iff, Nat.ltb_lt, Nat.eqb_eq in *.
  destruct H1 as [H1|[-> H1]], H2 as [H2|[-> H2]]; try (left; lia). right. split; [reflexivity|]. eauto.
Qed.
Lemma str_leb_total a : forall b, str_leb a b = false -> str_leb b a = true.
Proof.
  induction a as [|x a IH]; intros [|y b] H; try reflexivity; try discriminate.
  cbn [str_leb] in *. rewrite orb_false_iff, andb_false_iff, Nat.ltb_ge, Nat.eqb_neq in H.
  rewrite orb_true_iff, andb_true_iff, Nat.ltb_lt, Nat.eqb_eq. destruct H as [H1 [H2|H2]]; [left; lia|].
  destruct (Nat.eq_dec x y) as [->|n]; [right; split; auto|left; lia].
Qed.

Definition item_le (x y : str * Z) : Prop := str_leb (fst x) (fst y) = true.
Lemma insert_item_perm x l : Permutation (insert_item x l) (x :: l).
Proof. induction l as [|y l IH]; cbn; [reflexivity|]. destruct (str_leb _ _); [reflexivity|]. rewrite IH. apply perm_swap. Qed.
Lemma sort_items_perm l : Permutation (sort_items l) l.
Proof. unfold sort_items. induction l as [|x l IH]; cbn; [reflexivity|]. rewrite insert_item_perm. now constructor. Qed.
Lemma insert_item_sorted x l : StronglySorted item_le l -> StronglySorted item_le (insert_item x l).
Proof.
  induction l as [|y l IH]; cbn; intros H; [repeat constructor|]. apply StronglySorted_inv in H. destruct H as [H Hf].
  destruct (str_leb (fst x) (fst y)) eqn:E.
  - constructor; [constructor; assumption|]. constructor; [exact E|]. rewrite Forall_forall in *. intros z Hz.
    unfold item_le in *. eapply str_leb_trans; [exact E|now apply Hf].
  - constructor; [now apply IH|]. rewrite Forall_forall in *. intros z Hz.
    apply (Permutation_in z (insert_item_perm x l)) in Hz. destruct Hz as [<-|Hz]; [now apply str_leb_total|now apply Hf].
Qed.
Lemma sort_items_sorted l : StronglySorted item_le (sort_items l).
Proof. unfold sort_items. induction l as [|x l IH]; cbn; [constructor|]. now apply insert_item_sorted. Qed.

(* ---------- the id -> label dict ---------- *)
Definition invert (l : list (str * Z)) (ls : dict Z str) : dict Z str := fold_left (fun ls it => dset ls (snd it) (fst it)) l ls.
Lemma invert_ok l : forall ls, dict_ok ls -> dict_ok (invert l ls).
Proof. induction l as [|x l IH]; cbn; intros ls H; [exact H|]. apply IH. now apply dict_ok_dset. Qed.
Lemma invert_keys l : forall ls i, In i (dkeys (invert l ls)) <-> In i (dkeys ls) \/ In i (map snd l).
Proof.
  induction l as [|x l IH]; cbn [invert fold_left map]; intros ls i; [cbn; tauto|].
  change (fold_left _ l ?a) with (invert l a). rewrite IH, dkeys_dset. destruct (dhas ls (snd x)) eqn:E.
  - apply dhas_keys in E. cbn [In]. split; [tauto|]. intros [H|[<-|H]]; auto.
  - rewrite in_app_iff. cbn [In]. tauto.
Qed.
Lemma invert_get l : forall ls i lab, StronglySorted item_le l -> dget (invert l ls) i = Some lab ->
  (dget ls i = Some lab /\ ~ In i (map snd l)) \/ (In (lab, i) l /\ forall lab', In (lab', i) l -> str_leb lab' lab = true).
Proof.
  induction l as [|x l IH]; cbn [invert fold_left map]; intros ls i lab Hs H; [left; cbn; auto|].
  change (fold_left _ l ?a) with (invert l a) in H. apply StronglySorted_inv in Hs. destruct Hs as [Hs Hf].
  apply IH in H; [|exact Hs]. destruct H as [[H Hn]|[H Hm]].
  - rewrite dget_dset in H. destruct (keqb (snd x) i) eqn:E.
    + apply keqb_eq in E. apply (f_equal (fun o => match o with Some z => z | None => lab end)) in H. subst lab i.
      right. split; [left; now destruct x|]. intros lab' [Hx|Hx]; [rewrite Hx; apply str_leb_refl|].
      exfalso. apply Hn. change (snd x) with (snd (lab', snd x)). now apply in_map.
    + apply keqb_neq in E. left. split; [exact H|]. cbn. intros [?|?]; contradiction.
  - right. split; [now right|]. intros lab' [Hx|Hx]; [|now apply Hm]. rewrite Forall_forall in Hf. specialize (Hf _ H).
    subst x. exact Hf.
Qed.

Lemma fold_min_spec l : forall a, (fold_left Z.min l a <= a) /\ (forall x, In x l -> fold_left Z.min l a <= x) /\ (fold_left Z.min l a = a \/ In (fold_left Z.min l a) l).
Proof.
  induction l as [|x l IH]; cbn; intros a; [split; [lia|split; [tauto|auto]]|]. destruct (IH (Z.min a x)) as (H1&H2&H3).
  split; [lia|split].
  - intros y [<-|Hy]; [lia|auto].
  - destruct H3 as [H3|H3]; [|auto]. rewrite H3. destruct (Z.min_dec a x) as [E|E]; rewrite E in *; auto.
Qed.
Lemma fold_max_spec l : forall a, (a <= fold_left Z.max l a) /\ (forall x, In x l -> x <= fold_left Z.max l a) /\ (fold_left Z.max l a = a \/ In (fold_left Z.max l a) l).
Proof.
  induction l as [|x l IH]; cbn; intros a; [split; [lia|split; [tauto|auto]]|]. destruct (IH (Z.max a x)) as (H1&H2&H3).
  split; [lia|split].
  - intros y [<-|Hy]; [lia|auto].
  - destruct H3 as [H3|H3]; [|auto]. rewrite H3. destruct (Z.max_dec a x) as [E|E]; rewrite E in *; auto.
Qed.
Lemma zmin_spec l m : zmin_list l = Ok m <-> In m l /\ forall x, In x l -> m <= x.
Proof.
  destruct l as [|a l]; cbn; [split; [discriminate|tauto]|]. destruct (fold_min_spec l a) as (H1&H2&H3). split.
  - intros [= <-]. split; [destruct H3 as [H3|H3]; auto|]. intros x [<-|Hx]; auto.
  - intros [Hm Hl]. f_equal. apply Z.le_antisymm; [destruct Hm as [<-|Hm]; auto|]. apply Hl. destruct H3 as [H3|H3]; auto.
Qed.
Lemma zmax_spec l m : zmax_list l = Ok m <-> In m l /\ forall x, In x l -> x <= m.
Proof.
  destruct l as [|a l]; cbn; [split; [discriminate|tauto]|]. destruct (fold_max_spec l a) as (H1&H2&H3). split.
  - intros [= <-]. split; [destruct H3 as [H3|H3]; auto|]. intros x [<-|Hx]; auto.
  - intros [Hm Hl]. f_equal. apply Z.le_antisymm; [apply Hl; destruct H3 as [H3|H3]; auto|destruct Hm as [<-|Hm]; auto].
Qed.

Definition ids (n : nat) : list Z := map Z.of_nat (seq 0 n).
Lemma In_ids n i : In i (ids n) <-> 0 <= i < Z.of_nat n.
Proof.
  unfold ids. rewrite in_map_iff. split.
  - intros (k&<-&H). apply in_seq in H. lia.
  - intros H. exists (Z.to_nat i). rewrite in_seq. lia.
Qed.
Lemma ids_sorted n : StronglySorted Z.lt (ids n).
Proof.
  unfold ids. generalize 0%nat as a. induction n as [|n IH]; intros a; cbn; constructor; auto.
  rewrite Forall_forall. intros z Hz. apply in_map_iff in Hz. destruct Hz as (k&<-&Hk). apply in_seq in Hk. lia.
Qed.

Lemma NoDup_range_full (l : list Z) : NoDup l -> (forall x, In x l -> 0 <= x < Z.of_nat (length l)) -> forall x, In x l <-> 0 <= x < Z.of_nat (length l).
Proof.
  intros Hn Hr x. split; [apply Hr|]. intros Hx. assert (Hi : incl (ids (length l)) l).
  { apply NoDup_length_incl; [exact Hn| |].
    - unfold ids. rewrite map_length, seq_length. lia.
    - intros y Hy. apply In_ids. now apply Hr. }
  apply Hi. now apply In_ids.
Qed.

(** the labels of an accepted dict *)
Lemma parse_dict_spec d : dict_ok d ->
  (forall d' labels, parse_dict d = Ok (d', labels) ->
     d' = d /\ labels <> [] /\ uses_ids d (Z.of_nat (length labels)) /\
     forall i l, nth_error labels i = Some l -> dget d l = Some (Z.of_nat i) /\ forall l', dget d l' = Some (Z.of_nat i) -> not_after l' l)
  /\ (forall n, 0 < n -> uses_ids d n -> is_ok (parse_dict d) = true).
Proof.
  intros Hd. unfold parse_dict. fold (invert (sort_items d) []). set (labels := invert (sort_items d) []).
  assert (Hok : dict_ok labels) by (apply invert_ok; constructor).
  assert (Hk : forall i, In i (dkeys labels) <-> exists l, dget d l = Some i).
  { intros i. unfold labels. rewrite invert_keys. cbn [dkeys map In]. split.
    - intros [[]|H]. apply in_map_iff in H. destruct H as ((l&j)&<-&H). exists l. apply In_dget; [exact Hd|].
      now apply (Permutation_in _ (sort_items_perm d)).
    - intros (l&H). right. apply in_map_iff. exists (l, i). split; [reflexivity|]. apply (Permutation_in _ (Permutation_sym (sort_items_perm d))).
      now apply dget_In. }
  assert (Hg : forall i l, dget labels i = Some l -> dget d l = Some i /\ forall l', dget d l' = Some i -> not_after l' l).
  { intros i l H. unfold labels in H. apply invert_get in H; [|apply sort_items_sorted]. destruct H as [[H _]|[H Hm]]; [discriminate|]. split.
    - apply In_dget; [exact Hd|]. now apply (Permutation_in _ (sort_items_perm d)).
    - intros l' H'. apply str_leb_not_after, Hm. apply (Permutation_in _ (Permutation_sym (sort_items_perm d))). now apply dget_In. }
  clearbody labels. assert (Hlen : length (dkeys labels) = length labels) by apply map_length.
  split.
  - intros d' ls H. apply bind_Ok in H. destruct H as (mn&Hmn&H). apply bind_Ok in H. destruct H as (mx&Hmx&H).
    apply bind_Ok in H. destruct H as (u1&Ha1&H). apply bind_Ok in H. destruct H as (u2&Ha2&H). apply assert_Ok in Ha1. apply assert_Ok in Ha2.
    apply Z.eqb_eq in Ha1, Ha2. apply Ok_inj in H. inversion H; subst d' ls. clear H. subst mn mx. apply zmin_spec in Hmn. apply zmax_spec in Hmx.
    destruct Hmn as [Hz Hmn], Hmx as [_ Hmx].
    assert (Hfull : forall x, In x (dkeys labels) <-> 0 <= x < Z.of_nat (length labels)).
    { rewrite <- Hlen. apply NoDup_range_full; [exact Hok|]. intros x Hx. rewrite Hlen. specialize (Hmn x Hx). specialize (Hmx x Hx). lia. }
    assert (Hsk : map fst (stable_sort_by fst labels) = ids (length labels)).
    { apply sorted_lt_ext; [|apply ids_sorted|].
      - apply sorted_le_lt; [|eapply Permutation_NoDup; [apply Permutation_map, Permutation_sym, stable_sort_perm|exact Hok]].
        assert (Hs := stable_sort_sorted fst labels). revert Hs. generalize (stable_sort_by fst labels). intros l Hs. induction Hs as [|x l Hs IH Hf]; cbn; constructor; [exact IH|].
        rewrite Forall_forall in *. intros z Hz'. apply in_map_iff in Hz'. destruct Hz' as (y&<-&Hy). now apply Hf.
      - intros x. rewrite In_ids, <- Hfull. split; apply Permutation_in; [apply Permutation_map, stable_sort_perm|apply Permutation_map, Permutation_sym, stable_sort_perm]. }
    assert (Hl : length (map snd (stable_sort_by fst labels)) = length labels).
    { rewrite map_length. apply Permutation_length, stable_sort_perm. }
    split; [reflexivity|]. split.
    + destruct (map snd (stable_sort_by fst labels)); [|discriminate]. cbn in Hl. destruct labels; [destruct Hz|discriminate].
    + rewrite Hl. split; [intros i; rewrite <- Hk; apply Hfull|].
      intros i l Hi. apply Hg. apply In_dget; [exact Hok|]. apply (Permutation_in _ (stable_sort_perm fst labels)).
      assert (Hi' := Hi). apply nth_error_In in Hi'.
      rewrite nth_error_map in Hi. destruct (nth_error (stable_sort_by fst labels) i) as [[k l0]|] eqn:E; [|discriminate]. cbn in Hi. injection Hi as ->.
      assert (Hk' := map_nth_error fst _ _ E). rewrite Hsk in Hk'. unfold ids in Hk'. rewrite nth_error_map in Hk'.
      assert (Hlt : (i < length labels)%nat). { rewrite <- Hl, map_length. apply nth_error_Some. congruence. }
      rewrite nth_error_seq in Hk' by exact Hlt. cbn in Hk'. injection Hk' as Hk'. subst k. now apply nth_error_In in E.
  - intros n Hn Hu. assert (Hkn : forall i, In i (dkeys labels) <-> 0 <= i < n) by (intros i; rewrite Hk; apply Hu).
    assert (Hnum : Z.of_nat (length labels) = n).
    { rewrite <- Hlen. assert (HP : Permutation (dkeys labels) (ids (Z.to_nat n))).
      { apply NoDup_Permutation; [exact Hok|apply sorted_lt_NoDup, ids_sorted|]. intros i. rewrite In_ids, Hkn. lia. }
      apply Permutation_length in HP. rewrite HP. unfold ids. rewrite map_length, seq_length. lia. }
    assert (H0 : zmin_list (dkeys labels) = Ok 0). { apply zmin_spec. split; [apply Hkn; lia|]. intros x Hx. apply Hkn in Hx. lia. }
    assert (H1 : zmax_list (dkeys labels) = Ok (n - 1)). { apply zmax_spec. split; [apply Hkn; lia|]. intros x Hx. apply Hkn in Hx. lia. }
    rewrite H0, H1. cbn [bind]. rewrite Hnum, !Z.eqb_refl. reflexivity.
Qed.

(* ---------- labels by enumeration ---------- *)
Lemma enum_dict_ok l : forall i d, dict_ok d -> dict_ok (enum_dict i l d).
Proof. induction l as [|x l IH]; cbn; intros i d H; [exact H|]. apply IH. now apply dict_ok_dset. Qed.
Lemma enum_dict_notin l : forall i d x, ~ In x l -> dget (enum_dict i l d) x = dget d x.
Proof. induction l as [|y l IH]; cbn; intros i d x H; [reflexivity|]. rewrite IH by tauto. apply dget_dset_neq. intros ->. tauto. Qed.
Lemma enum_dict_nth l : forall i d k x, NoDup l -> nth_error l k = Some x -> dget (enum_dict i l d) x = Some (i + Z.of_nat k).
Proof.
  induction l as [|y l IH]; intros i d k x Hn H; [destruct k; discriminate|]. inversion Hn as [|? ? Hy Hn']; subst. destruct k as [|k]; cbn in *.
  - injection H as ->. rewrite enum_dict_notin by exact Hy. rewrite dget_dset_eq. f_equal. lia.
  - rewrite (IH _ _ k) by assumption. f_equal. lia.
Qed.
Lemma enum_dict_get l : forall i d x j, dget (enum_dict i l d) x = Some j -> (dget d x = Some j /\ ~ In x l) \/ exists k, nth_error l k = Some x /\ j = i + Z.of_nat k.
Proof.
  induction l as [|y l IH]; cbn [enum_dict]; intros i d x j H; [left; cbn; auto|]. apply IH in H. destruct H as [[H Hn]|(k&Hk&->)].
  - rewrite dget_dset in H. destruct (keqb y x) eqn:E.
    + apply keqb_eq in E. subst y. injection H as <-. right. exists 0%nat. cbn. split; [reflexivity|lia].
    + apply keqb_neq in E. left. split; [exact H|]. cbn. tauto.
  - right. exists (S k). cbn. split; [exact Hk|lia].
Qed.
Lemma enum_dict_last l : forall i d k x, nth_error l k = Some x -> exists j, dget (enum_dict i l d) x = Some j /\ i + Z.of_nat k <= j.
Proof.
  induction l as [|y l IH]; intros i d k x H; [destruct k; discriminate|]. destruct k as [|k]; cbn in *.
  - injection H as ->. destruct (in_dec (list_eq_dec Nat.eq_dec) x l) as [Hin|Hn].
    + apply In_nth_error in Hin. destruct Hin as (k&Hk). destruct (IH (i + 1) (dset d x i) k x Hk) as (j&Hj&Hle). exists j. split; [exact Hj|lia].
    + rewrite enum_dict_notin by exact Hn. rewrite dget_dset_eq. exists i. split; [reflexivity|lia].
  - destruct (IH (i + 1) (dset d y i) k x H) as (j&Hj&Hle). exists j. split; [exact Hj|lia].
Qed.

Lemma lines_uses_ids l n : 0 < n -> uses_ids (enum_dict 0 l []) n -> NoDup l /\ n = Z.of_nat (length l).
Proof.
  intros Hn Hu. assert (Hk : forall k x, nth_error l k = Some x -> Z.of_nat k < n).
  { intros k x H. destruct (enum_dict_last l 0 [] k x H) as (j&Hj&Hle). assert (0 <= j < n) by (apply Hu; eauto). lia. }
  assert (Hlen : Z.of_nat (length l) <= n).
  { destruct l as [|a l]; [cbn; lia|]. destruct (nth_error (a :: l) (length l)) as [x|] eqn:E.
    - apply Hk in E. cbn [length]. lia.
    - apply nth_error_None in E. cbn [length] in E. lia. }
  assert (Hback : forall i, 0 <= i < n -> exists x, nth_error l (Z.to_nat i) = Some x /\ dget (enum_dict 0 l []) x = Some i).
  { intros i Hi. apply Hu in Hi. destruct Hi as (x&Hx). exists x. assert (Hx' := Hx). apply enum_dict_get in Hx. destruct Hx as [[Hx _]|(k&Hk'&->)]; [discriminate|]. split; [|exact Hx']. rewrite Z.add_0_l, Nat2Z.id. exact Hk'. }
  assert (Hlen' : n = Z.of_nat (length l)).
  { destruct (Hback (n - 1)) as (x&Hx&_); [lia|]. apply (f_equal (fun o => match o with Some _ => true | None => false end)) in Hx.
    assert (Z.to_nat (n - 1) < length l)%nat. { apply nth_error_Some. destruct (nth_error l (Z.to_nat (n - 1))); congruence. } lia. }
  split; [|exact Hlen']. apply NoDup_nth_error. intros a b Ha Hab.
  destruct (nth_error l a) as [x|] eqn:Ea; [|apply nth_error_None in Ea; lia].
  destruct (Hback (Z.of_nat a)) as (x1&Hx1&Hd1); [lia|]. rewrite Nat2Z.id in Hx1.
  assert (Hb : (b < length l)%nat) by (apply nth_error_Some; congruence).
  destruct (Hback (Z.of_nat b)) as (x2&Hx2&Hd2); [lia|]. rewrite Nat2Z.id in Hx2.
  assert (x1 = x) by congruence. assert (x2 = x) by congruence. subst x1 x2. rewrite Hd1 in Hd2. injection Hd2. lia.
Qed.
Lemma enum_uses_ids l : NoDup l -> uses_ids (enum_dict 0 l []) (Z.of_nat (length l)).
Proof.
  intros Hn i. split.
  - intros (x&H). apply enum_dict_get in H. destruct H as [[H _]|(k&Hk&->)]; [discriminate|]. assert (k < length l)%nat by (apply nth_error_Some; congruence). lia.
  - intros Hi. destruct (nth_error l (Z.to_nat i)) as [x|] eqn:E; [|apply nth_error_None in E; lia]. exists x. rewrite (enum_dict_nth l 0 [] _ x Hn E). f_equal. lia.
Qed.

Definition table_ok (d : dict str Z) (labels : list str) : Prop :=
  dict_ok d /\ uses_ids d (Z.of_nat (length labels)) /\ forall i l, nth_error labels i = Some l -> dget d l = Some (Z.of_nat i).

Lemma parse_table s d labels : distinct_labels s -> parse s = Ok (d, labels) -> table_ok d labels.
Proof.
  intros Hs H. destruct s as [l|l|d0]; cbn [parse distinct_labels] in *.
  - inversion H; subst. split; [apply enum_dict_ok; constructor|]. split; [now apply enum_uses_ids|]. intros i x Hi. now rewrite (enum_dict_nth _ 0 [] i x Hs Hi).
  - assert (Hd : dict_ok (enum_dict 0 l [])) by (apply enum_dict_ok; constructor). destruct (parse_dict_spec _ Hd) as [Hp _]. destruct (Hp _ _ H) as (->&_&Hu&Hn). split; [exact Hd|split; [exact Hu|]]. intros i x Hi. now apply Hn.
  - destruct (parse_dict_spec _ Hs) as [Hp _]. destruct (Hp _ _ H) as (->&_&Hu&Hn). split; [exact Hs|split; [exact Hu|]]. intros i x Hi. now apply Hn.
Qed.
Lemma lines_parse l d labels : parse (SLines l) = Ok (d, labels) <-> l <> [] /\ NoDup l /\ d = enum_dict 0 l [] /\ labels = l.
Proof.
  assert (Hd : dict_ok (enum_dict 0 l [])) by (apply enum_dict_ok; constructor). destruct (parse_dict_spec _ Hd) as [Hp Hq]. cbn [parse].
  assert (F : forall d labels, parse_dict (enum_dict 0 l []) = Ok (d, labels) -> l <> [] /\ NoDup l /\ d = enum_dict 0 l [] /\ labels = l).
  { clear d labels. intros d labels H. destruct (Hp _ _ H) as (->&Hne&Hu&Hn). destruct (lines_uses_ids l (Z.of_nat (length labels))) as [Hnd Hlen].
    - destruct labels; [contradiction|cbn; lia].
    - exact Hu.
    - split; [intros ->; destruct labels; [contradiction|cbn in Hlen; lia]|]. split; [exact Hnd|split; [reflexivity|]].
      apply nth_error_ext. intros i. destruct (nth_error labels i) as [x|] eqn:E.
      + destruct (Hn _ _ E) as [Hx _]. apply enum_dict_get in Hx. destruct Hx as [[Hx _]|(k&Hk&Hik)]; [discriminate|]. replace i with k by lia. now symmetry.
      + symmetry. apply nth_error_None. apply nth_error_None in E. lia. }
  split; [apply F|]. intros (Hne&Hnd&->&->). specialize (Hq (Z.of_nat (length l))). destruct (parse_dict (enum_dict 0 l [])) as [(d', ls')|e] eqn:E.
  - destruct (F _ _ eq_refl) as (_&_&->&->). reflexivity.
  - cbn in Hq. assert (false = true); [|discriminate]. apply Hq; [destruct l; [contradiction|cbn; lia]|]. now apply enum_uses_ids.
Qed.

(* ---------- the constructor ---------- *)
Lemma make_vocab_parts s unk nl post v : make_vocab s unk nl post = Ok v ->
  exists d labels, parse s = Ok (d, labels) /\ v_vocab v = d /\ v_labels v = labels /\ v_postfix v = post
    /\ to_id d labels unk = Ok (v_unknown_id v)
    /\ match v_unknown_id v with Some i => exists l, id_to_label labels i = Ok l /\ v_unknown v = LStr l | None => v_unknown v = unk end.
Proof.
  unfold make_vocab. intros H. apply bind_Ok in H. destruct H as ((d&labels)&Hp&H). apply bind_Ok in H. destruct H as (u&_&H).
  apply bind_Ok in H. destruct H as (uid&Hu&H). apply bind_Ok in H. destruct H as (ul&Hul&H). apply Ok_inj in H. subst v. cbn.
  exists d, labels. split; [exact Hp|]. split; [reflexivity|split; [reflexivity|split; [reflexivity|split; [exact Hu|]]]]. destruct uid as [i|].
  - apply bind_Ok in Hul. destruct Hul as (l&Hl&Hul). apply Ok_inj in Hul. subst ul. now exists l.
  - apply Ok_inj in Hul. now subst.
Qed.
Lemma id_to_label_spec labels i l : id_to_label labels i = Ok l <-> 0 <= i /\ nth_error labels (Z.to_nat i) = Some l.
Proof.
  unfold id_to_label, is_id_valid, pyget. destruct (0 <=? i) eqn:E0; cbn [andb].
  - destruct (i <? Z.of_nat (length labels)) eqn:E1.
    + destruct (nth_error labels (Z.to_nat i)) as [x|] eqn:E.
      * split; [intros [= <-]|intros [_ [= <-]]]; auto. split; [lia|reflexivity].
      * split; [discriminate|intros [_ [=]]].
    + split; [discriminate|]. intros [_ H]. assert (Z.to_nat i < length labels)%nat by (apply nth_error_Some; congruence). lia.
  - split; [discriminate|lia].
Qed.
Lemma label_to_id_spec d l i : label_to_id d l = Ok i <-> dget d l = Some i.
Proof. unfold label_to_id. destruct (dget d l); split; congruence. Qed.

Lemma to_id_ok d labels u : (forall i l, nth_error labels i = Some l -> dget d l = Some (Z.of_nat i)) ->
  (exists o, to_id d labels u = Ok o) <-> unknown_ok d (Z.of_nat (length labels)) u.
Proof.
  intros Ht. destruct u as [|s|i]; cbn [to_id unknown_ok].
  - split; [auto|]. intros _. now exists None.
  - unfold label_to_id. destruct (dget d s) as [i|]; cbn; split; intros H; try congruence; try (now eexists). destruct H as (o&H). discriminate.
  - destruct (i =? -1) eqn:E1; [split; [intros _; lia|intros _; now exists None]|]. unfold is_id_valid.
    destruct ((0 <=? i) && (i <? Z.of_nat (length labels))) eqn:E2; split; intros H; try lia; try (now eexists). destruct H as (o&H). discriminate.
Qed.
Lemma to_id_valid d labels u i : uses_ids d (Z.of_nat (length labels)) -> to_id d labels u = Ok (Some i) -> 0 <= i < Z.of_nat (length labels).
Proof.
  intros Hu H. destruct u as [|s|k]; cbn [to_id] in H.
  - discriminate.
  - apply bind_Ok in H. destruct H as (j&Hj&H). apply Ok_inj in H. injection H as ->. apply label_to_id_spec in Hj. apply Hu. eauto.
  - destruct (k =? -1); [discriminate|]. unfold is_id_valid in H. destruct ((0 <=? k) && (k <? Z.of_nat (length labels))) eqn:E; [|discriminate]. apply Ok_inj in H. injection H as ->. lia.
Qed.

Lemma make_vocab_ok s unk nl post d labels : parse s = Ok (d, labels) -> uses_ids d (Z.of_nat (length labels)) ->
  (forall i l, nth_error labels i = Some l -> dget d l = Some (Z.of_nat i)) ->
  (is_ok (make_vocab s unk nl post) = true <-> (nl = None \/ nl = Some (Z.of_nat (length labels))) /\ unknown_ok d (Z.of_nat (length labels)) unk).
Proof.
  intros Hp Hu Ht. unfold make_vocab. rewrite Hp. cbn [bind].
  assert (Hlab : forall uid, to_id d labels unk = Ok uid -> exists r, match uid with Some i => let* l := id_to_label labels i in Ok (LStr l) | None => Ok unk end = Ok r).
  { intros [i|] H; [|now eexists]. apply to_id_valid in H; [|exact Hu]. destruct (nth_error labels (Z.to_nat i)) as [l|] eqn:E; [|apply nth_error_None in E; lia].
    assert (Hi : id_to_label labels i = Ok l) by (apply id_to_label_spec; split; [lia|exact E]). rewrite Hi. now eexists. }
  pose proof (to_id_ok d labels unk Ht) as Hto. destruct nl as [n|].
  - destruct (Z.of_nat (length labels) =? n) eqn:E; cbn [assert_ bind].
    + apply Z.eqb_eq in E. subst n. destruct (to_id d labels unk) as [uid|e] eqn:Eu; cbn [bind].
      * destruct (Hlab _ eq_refl) as (r&->). cbn. split; [|auto]. intros _. split; [now right|]. apply Hto. eauto.
      * cbn. split; [discriminate|]. intros [_ H]. apply Hto in H. destruct H as (o&H). discriminate.
    + cbn. apply Z.eqb_neq in E. split; [discriminate|]. intros [[H|H] _]; [discriminate|]. injection H. congruence.
  - cbn [bind]. destruct (to_id d labels unk) as [uid|e] eqn:Eu; cbn [bind].
    + destruct (Hlab _ eq_refl) as (r&->). cbn. split; [|auto]. intros _. split; [now left|]. apply Hto. eauto.
    + cbn. split; [discriminate|]. intros [_ H]. apply Hto in H. destruct H as (o&H). discriminate.
Qed.

Lemma file_accepted d unk nl post : dict_ok d ->
  (is_ok (make_vocab (SDict d) unk nl post) = true <->
   exists n, 0 < n /\ uses_ids d n /\ (nl = None \/ nl = Some n) /\ unknown_ok d n unk).
Proof.
  intros Hd. destruct (parse_dict_spec d Hd) as [Hp Hq]. split.
  - intros H. destruct (parse (SDict d)) as [(d'&labels)|e] eqn:E; [|unfold make_vocab in H; rewrite E in H; discriminate].
    cbn [parse] in E. assert (Ep := E). destruct (Hp _ _ E) as (->&Hne&Hu&Hn). exists (Z.of_nat (length labels)).
    split; [destruct labels; [contradiction|cbn; lia]|]. split; [exact Hu|].
    apply (make_vocab_ok (SDict d) unk nl post d labels) in H; [exact H|exact E|exact Hu|]. intros i l Hi. now apply Hn.
  - intros (n&Hn&Hu&Hnl&Hunk). specialize (Hq n Hn Hu). destruct (parse_dict d) as [(d'&labels)|e] eqn:E; [|discriminate].
    destruct (Hp _ _ eq_refl) as (->&Hne&Hu'&Ht). assert (n = Z.of_nat (length labels)).
    { assert (0 < Z.of_nat (length labels)) by (destruct labels; [contradiction|cbn; lia]).
      assert (A : 0 <= n - 1 < Z.of_nat (length labels)) by (apply Hu', Hu; lia).
      assert (B : 0 <= Z.of_nat (length labels) - 1 < n) by (apply Hu, Hu'; lia). lia. }
    subst n. eapply (make_vocab_ok (SDict d)); [exact E|exact Hu'| |split; assumption]. intros i l Hi. now apply Ht.
Qed.

Lemma file_labels d unk nl post v : dict_ok d -> make_vocab (SDict d) unk nl post = Ok v ->
  v_vocab v = d /\ uses_ids d (Z.of_nat (length (v_labels v))) /\
  forall i l, nth_error (v_labels v) i = Some l <-> dget d l = Some (Z.of_nat i) /\ forall l', dget d l' = Some (Z.of_nat i) -> not_after l' l.
Proof.
  intros Hd H. apply make_vocab_parts in H. destruct H as (d'&labels&Hp&Hv&Hl&_). cbn [parse] in Hp. destruct (parse_dict_spec d Hd) as [Hs _].
  destruct (Hs _ _ Hp) as (->&_&Hu&Ht). rewrite Hl. split; [exact Hv|split; [exact Hu|]]. intros i l. split; [apply Ht|].
  intros [Hg Hm]. assert (Hi : 0 <= Z.of_nat i < Z.of_nat (length labels)) by (apply Hu; eauto).
  destruct (nth_error labels i) as [x|] eqn:E; [|apply nth_error_None in E; lia]. f_equal. destruct (Ht _ _ E) as [Hx Hxm].
  specialize (Hxm _ Hg). specialize (Hm _ Hx). clear - Hxm Hm.
  destruct Hm as [(r&->)|(p&a&b&x'&l'&->&->&Hlt)].
  - destruct Hxm as [(r'&E)|(p&a&b&l'&x'&E1&E2&Hlt)].
    + rewrite <- app_assoc in E. rewrite <- (app_nil_r x) in E at 1. apply app_inv_head in E. symmetry in E. apply app_eq_nil in E. destruct E as [-> _]. now rewrite app_nil_r.
    + subst x. rewrite <- app_assoc in E1. apply app_inv_head in E1. cbn in E1. injection E1. lia.
  - exfalso. destruct Hxm as [(r'&E)|(q&c&d0&l2&x2&E1&E2&Hlt2)].
    + rewrite <- app_assoc in E. apply app_inv_head in E. cbn in E. injection E. lia.
    + revert q E1 E2. induction p as [|z p IH]; intros [|w q] E1 E2; cbn in *.
      * injection E1 as -> _. injection E2 as -> _. lia.
      * injection E1 as -> _. injection E2 as -> _. lia.
      * injection E1 as -> _. injection E2 as -> _. lia.
      * injection E1 as -> E1. injection E2 as E2. eapply IH; eauto.
Qed.

Lemma lines_accepted l unk nl post :
  (is_ok (make_vocab (SLines l) unk nl post) = true <->
   l <> [] /\ NoDup l /\ (nl = None \/ nl = Some (Z.of_nat (length l))) /\
   match unk with LNone => True | LStr s => In s l | LInt i => -1 <= i < Z.of_nat (length l) end).
Proof.
  assert (HU : unknown_ok (enum_dict 0 l []) (Z.of_nat (length l)) unk <-> match unk with LNone => True | LStr s => In s l | LInt i => -1 <= i < Z.of_nat (length l) end).
  { destruct unk as [|s|i]; cbn; try tauto. split.
    - intros H. destruct (dget (enum_dict 0 l []) s) eqn:E; [|congruence]. apply enum_dict_get in E. destruct E as [[E _]|(k&Hk&_)]; [discriminate|]. now apply nth_error_In in Hk.
    - intros H. apply In_nth_error in H. destruct H as (k&Hk). destruct (enum_dict_last l 0 [] k s Hk) as (j&->&_). discriminate. }
  split.
  - intros H. destruct (parse (SLines l)) as [(d'&labels)|e] eqn:E; [|unfold make_vocab in H; rewrite E in H; discriminate].
    assert (E' := E). apply lines_parse in E'. destruct E' as (Hne&Hnd&->&->). split; [exact Hne|split; [exact Hnd|]]. rewrite <- HU.
    apply (make_vocab_ok (SLines l) unk nl post (enum_dict 0 l []) l) in H; [exact H|exact E|now apply enum_uses_ids|]. intros i x Hi. now rewrite (enum_dict_nth l 0 [] i x Hnd Hi).
  - intros (Hne&Hnd&Hnl&Hunk). apply (make_vocab_ok (SLines l) unk nl post (enum_dict 0 l []) l).
    + apply lines_parse. auto.
    + now apply enum_uses_ids.
    + intros i x Hi. now rewrite (enum_dict_nth l 0 [] i x Hnd Hi).
    + split; [exact Hnl|]. now apply HU.
Qed.
Lemma lines_labels l unk nl post v : make_vocab (SLines l) unk nl post = Ok v -> v_labels v = l.
Proof. intros H. apply make_vocab_parts in H. destruct H as (d&labels&Hp&_&->&_). apply lines_parse in Hp. now destruct Hp as (_&_&_&->). Qed.

Lemma id_label_id s unk nl post v i l : distinct_labels s -> make_vocab s unk nl post = Ok v ->
  id_to_label (v_labels v) i = Ok l -> label_to_id (v_vocab v) l = Ok i.
Proof.
  intros Hs H Hi. apply make_vocab_parts in H. destruct H as (d&labels&Hp&->&Hl&_). rewrite Hl in Hi. apply id_to_label_spec in Hi. destruct Hi as [H0 Hi].
  destruct (parse_table _ _ _ Hs Hp) as (_&_&Ht). apply label_to_id_spec. rewrite (Ht _ _ Hi). f_equal. lia.
Qed.
Lemma distinct_ids_labels s : distinct_ids s -> distinct_labels s.
Proof. destruct s; cbn; tauto. Qed.
Lemma snd_inj_ (d : dict str Z) l l' i : NoDup (dvals d) -> In (l, i) d -> In (l', i) d -> l = l'.
Proof.
  unfold dvals. induction d as [|(a, b) d IH]; cbn; intros Hn; [tauto|]. inversion Hn as [|? ? Hb Hd]; subst. intros [H|H] [H'|H'].
  - congruence.
  - exfalso. apply Hb. replace b with i by congruence. change i with (snd (l', i)). now apply in_map.
  - exfalso. apply Hb. replace b with i by congruence. change i with (snd (l, i)). now apply in_map.
  - auto.
Qed.
Lemma distinct_ids_inj s d labels : distinct_ids s -> parse s = Ok (d, labels) -> forall l l' i, dget d l = Some i -> dget d l' = Some i -> l = l'.
Proof.
  intros Hs Hp l l' i H H'. assert (E : forall ls, NoDup ls -> dget (enum_dict 0 ls []) l = Some i -> dget (enum_dict 0 ls []) l' = Some i -> l = l').
  { intros ls Hn A B. apply enum_dict_get in A. apply enum_dict_get in B. destruct A as [[A _]|(k&A&Ak)]; [discriminate|]. destruct B as [[B _]|(k'&B&Bk)]; [discriminate|]. assert (k' = k) by lia. subst k'. congruence. }
  destruct s as [ls|ls|d0]; cbn [distinct_ids] in Hs.
  - cbn [parse] in Hp. inversion Hp; subst. eapply E; eauto.
  - apply lines_parse in Hp. destruct Hp as (_&Hn&->&_). eapply E; eauto.
  - destruct Hs as [Hd Hn]. cbn [parse] in Hp. destruct (parse_dict_spec _ Hd) as [Hq _]. destruct (Hq _ _ Hp) as (->&_). apply dget_In in H, H'.
    eapply snd_inj_; eauto.
Qed.
Lemma label_id_label s unk nl post v i l : distinct_ids s -> make_vocab s unk nl post = Ok v ->
  label_to_id (v_vocab v) l = Ok i -> id_to_label (v_labels v) i = Ok l.
Proof.
  intros Hs H Hi. apply make_vocab_parts in H. destruct H as (d&labels&Hp&Hv&->&_). rewrite Hv in Hi. apply label_to_id_spec in Hi.
  destruct (parse_table _ _ _ (distinct_ids_labels _ Hs) Hp) as (_&Hu&Ht). assert (Hr : 0 <= i < Z.of_nat (length labels)) by (apply Hu; eauto).
  apply id_to_label_spec. split; [lia|]. destruct (nth_error labels (Z.to_nat i)) as [x|] eqn:E; [|apply nth_error_None in E; lia]. f_equal.
  apply Ht in E. rewrite Z2Nat.id in E by lia. eapply distinct_ids_inj; eauto.
Qed.

(* ---------- sentences ---------- *)
Section Text.
  Variable is_space : nat -> bool.
  Notation split_ws := (split_ws is_space).
  Notation words_of := (words_of is_space).
  Notation word := (word is_space).
  Notation blank := (blank is_space).

  Lemma split_word cur w rest : (forall c, In c w -> is_space c = false) -> split_ws cur (w ++ rest) = split_ws (cur ++ w) rest.
  Proof.
    revert cur. induction w as [|c w IH]; intros cur H; cbn; [now rewrite app_nil_r|]. rewrite (H c) by (now left). rewrite IH by (intros x Hx; apply H; now right). now rewrite <- app_assoc.
  Qed.
  Lemma split_blank s rest : blank s -> split_ws [] (s ++ rest) = split_ws [] rest.
  Proof. induction s as [|c s IH]; intros H; cbn; [reflexivity|]. rewrite (H c) by (now left). apply IH. intros x Hx. apply H. now right. Qed.
  Lemma split_ne cur : cur <> [] -> forall c s, is_space c = true -> split_ws cur (c :: s) = cur :: split_ws [] s.
  Proof. intros H c s Hc. cbn. rewrite Hc. now destruct cur. Qed.

  Lemma words_split s ws : words_of s ws -> split_ws [] s = ws.
  Proof.
    induction 1 as [s H|s w H Hw|s w c t ws H Hw Hc Ht IH].
    - rewrite <- (app_nil_r s). now rewrite split_blank.
    - rewrite split_blank by exact H. rewrite <- (app_nil_r w) at 1. rewrite split_word by apply Hw. cbn. destruct Hw as [Hw _]. now destruct w.
    - rewrite split_blank by exact H. rewrite split_word by apply Hw. cbn [app]. rewrite split_ne; [now rewrite IH|apply Hw|exact Hc].
  Qed.
  Lemma split_words_gen s : forall cur, (forall c, In c cur -> is_space c = false) -> words_of (cur ++ s) (split_ws cur s).
  Proof.
    induction s as [|c s IH]; intros cur Hcur.
    - cbn. rewrite app_nil_r. destruct cur as [|x cur]; [constructor; intros c []|]. apply (last_word _ [] (x :: cur)); [intros c []|]. split; [discriminate|exact Hcur].
    - cbn. destruct (is_space c) eqn:E.
      + destruct cur as [|x cur].
        * specialize (IH [] ltac:(intros ? [])). cbn [app] in *. inversion IH as [s0 Hb|s0 w Hb Hw|s0 w c0 t ws Hb Hw Hc Ht]; subst.
          -- constructor. intros y [<-|Hy]; auto.
          -- change (c :: s0 ++ w) with ((c :: s0) ++ w). constructor; [|exact Hw]. intros y [<-|Hy]; auto.
          -- change (c :: s0 ++ w ++ c0 :: t) with ((c :: s0) ++ w ++ c0 :: t). constructor; auto. intros y [<-|Hy]; auto.
        * apply (more_words _ [] (x :: cur) c s); [intros y []|split; [discriminate|exact Hcur]|exact E|]. apply (IH []). intros y [].
      + replace (cur ++ c :: s) with ((cur ++ [c]) ++ s) by now rewrite <- app_assoc. apply IH. intros y Hy. apply in_app_or in Hy. destruct Hy as [Hy|[<-|[]]]; auto.
  Qed.
  Lemma split_words s ws : split_ws [] s = ws <-> words_of s ws.
  Proof. split; [intros <-; apply (split_words_gen s []); intros ? []|apply words_split]. Qed.
  Lemma words_total s : exists ws, words_of s ws.
  Proof. exists (split_ws [] s). now apply split_words. Qed.
  Lemma words_of_word s ws : words_of s ws -> Forall word ws.
  Proof. induction 1; auto. Qed.
  Lemma join_words ws : is_space 32%nat = true -> Forall word ws -> words_of (join_space ws) ws.
  Proof.
    intros Hsp. induction 1 as [|w ws Hw Hws IH]; [constructor; intros c []|]. destruct ws as [|w2 ws].
    - cbn. apply (last_word _ [] w); [intros c []|exact Hw].
    - change (join_space (w :: w2 :: ws)) with (w ++ 32%nat :: join_space (w2 :: ws)). apply (more_words _ [] w); [intros c []|exact Hw|exact Hsp|exact IH].
  Qed.

  Lemma py_index_spec labels i l : 0 <= i -> (py_index labels i = Ok l <-> nth_error labels (Z.to_nat i) = Some l).
  Proof. intros H. unfold py_index, pyget. replace (0 <=? i) with true by lia. destruct (nth_error labels (Z.to_nat i)); split; congruence. Qed.

  Definition lookup (v : vocab) (k : str) : option Z := match dget (v_vocab v) k with Some i => Some i | None => v_unknown_id v end.
  Lemma get_seq_indices_known v seq is : Forall2 (fun k i => dget (v_vocab v) k = Some i) seq is -> get_seq_indices v seq = Ok (map Some is).
  Proof.
    intros H. unfold get_seq_indices. assert (A : mapM (fun k => let* i := label_to_id (v_vocab v) k in Ok (Some i)) seq = Ok (map Some is)).
    { induction H as [|k i seq is Hk H IH]; [reflexivity|]. cbn [mapM map]. unfold label_to_id at 1. rewrite Hk. cbn [bind]. rewrite IH. reflexivity. }
    assert (B : map (fun k => match dget (v_vocab v) k with Some i => Some i | None => v_unknown_id v end) seq = map Some is).
    { clear A. induction H as [|k i seq is Hk H IH]; [reflexivity|]. cbn [map]. rewrite Hk. now rewrite IH. }
    destruct (v_unknown v); [exact A|now rewrite B|now rewrite B].
  Qed.

  Lemma seq_labels_spec s unk nl post v seq : distinct_labels s -> make_vocab s unk nl post = Ok v -> Forall (fun i => 0 <= i) seq ->
    forall ls, mapM (py_index (v_labels v)) seq = Ok ls -> Forall2 (fun k i => dget (v_vocab v) k = Some i) ls seq /\ forall l, In l ls -> In l (v_labels v).
  Proof.
    intros Hs H Hseq ls Hm. apply make_vocab_parts in H. destruct H as (d&labels&Hp&->&Hlab&_). rewrite Hlab in *. destruct (parse_table _ _ _ Hs Hp) as (_&_&Ht).
    apply mapM_Ok_Forall2 in Hm. assert (G : Forall2 (fun k i => dget d k = Some i) ls seq /\ forall l, In l ls -> In l labels).
    { induction Hm as [|i l seq ls Hi Hm IH]; [split; [constructor|intros l []]|]. inversion Hseq as [|? ? H0 Hs']; subst. destruct (IH Hs') as [A B]. apply py_index_spec in Hi; [|exact H0]. split.
      - constructor; [|exact A]. rewrite (Ht _ _ Hi). f_equal. lia.
      - intros x [<-|Hx]; [now apply nth_error_In in Hi|auto]. }
    exact G.
  Qed.
  Lemma round_trip s unk nl v seq t : is_space 32%nat = true -> distinct_labels s -> make_vocab s unk nl [] = Ok v ->
    Forall word (v_labels v) -> Forall (fun i => 0 <= i) seq -> get_seq_labels v seq = Ok t -> get_seq is_space v t = Ok (map Some seq).
  Proof.
    intros Hsp Hs H Hw Hseq Ht. unfold get_seq_labels in Ht. apply bind_Ok in Ht. destruct Ht as (ls&Hls&Ht). apply Ok_inj in Ht. subst t.
    destruct (seq_labels_spec _ _ _ _ _ _ Hs H Hseq _ Hls) as [A B]. unfold get_seq. rewrite (words_split _ ls).
    - rewrite (get_seq_indices_known _ _ _ A). cbn [bind]. apply make_vocab_parts in H. destruct H as (d&labels&_&_&_&->&_). cbn. now rewrite app_nil_r.
    - apply join_words; [exact Hsp|]. rewrite Forall_forall in *. intros l Hl. apply Hw. now apply B.
  Qed.

  Lemma py_index_In labels i l : py_index labels i = Ok l -> In l labels.
  Proof.
    unfold py_index, pyget. intros H.
    destruct (0 <=? i); [destruct (nth_error labels (Z.to_nat i)) as [x|] eqn:E|destruct (0 <=? i + Z.of_nat (length labels)); [destruct (nth_error labels (Z.to_nat (i + Z.of_nat (length labels)))) as [x|] eqn:E|]]; try discriminate; apply Ok_inj in H; subst x; eapply nth_error_In; eauto.
  Qed.
  Lemma get_seq_indices_length v seq r : get_seq_indices v seq = Ok r -> length r = length seq.
  Proof.
    unfold get_seq_indices. intros H. destruct (v_unknown v).
    - apply mapM_Ok_Forall2 in H. symmetry. eapply Forall2_len; eauto.
    - apply Ok_inj in H. subst r. apply map_length.
    - apply Ok_inj in H. subst r. apply map_length.
  Qed.
  Lemma postfix_breaks s unk nl post v seq t : is_space 32%nat = true -> post <> [] -> make_vocab s unk nl post = Ok v ->
    Forall word (v_labels v) -> get_seq_labels v seq = Ok t -> get_seq is_space v t <> Ok (map Some seq).
  Proof.
    intros Hsp Hpost H Hw Ht E. unfold get_seq_labels in Ht. apply bind_Ok in Ht. destruct Ht as (ls&Hls&Ht). apply Ok_inj in Ht. subst t. apply mapM_Ok_Forall2 in Hls.
    unfold get_seq in E. rewrite (words_split _ ls) in E.
    - apply bind_Ok in E. destruct E as (r&Hr&E). apply Ok_inj in E. apply get_seq_indices_length in Hr. apply (f_equal (@length _)) in E. apply Forall2_len in Hls.
      apply make_vocab_parts in H. destruct H as (d&labels&_&_&_&Hp&_). rewrite Hp, app_length, !map_length in E. destruct post; [contradiction|]. cbn in E. lia.
    - apply join_words; [exact Hsp|]. rewrite Forall_forall in *. intros l Hl. apply Hw. apply In_nth_error in Hl. destruct Hl as (k&Hk).
      destruct (nth_error seq k) as [i|] eqn:Ei; [eapply py_index_In, (Forall2_nth _ _ _ _ _ _ Hls Ei Hk)|]. apply nth_error_None in Ei. apply Forall2_len in Hls. assert (k < length ls)%nat by (apply nth_error_Some; congruence). lia.
  Qed.

  Lemma known_ids s unk nl post v ws : distinct_ids s -> make_vocab s unk nl post = Ok v -> Forall (fun w => In w (v_labels v)) ws ->
    exists is, Forall2 (fun k i => dget (v_vocab v) k = Some i) ws is /\ mapM (py_index (v_labels v)) is = Ok ws.
  Proof.
    intros Hs H. induction 1 as [|w ws Hw Hws (is&A&B)]; [exists []; split; [constructor|reflexivity]|].
    apply In_nth_error in Hw. destruct Hw as (k&Hk). assert (Hi : id_to_label (v_labels v) (Z.of_nat k) = Ok w) by (apply id_to_label_spec; split; [lia|now rewrite Nat2Z.id]).
    apply (id_label_id s unk nl post v _ _ (distinct_ids_labels _ Hs) H) in Hi. apply label_to_id_spec in Hi.
    exists (Z.of_nat k :: is). split; [now constructor|]. cbn [mapM]. assert (E : py_index (v_labels v) (Z.of_nat k) = Ok w) by (apply py_index_spec; [lia|now rewrite Nat2Z.id]). rewrite E. cbn [bind]. now rewrite B.
  Qed.
  Lemma sentence_round_trip s unk nl v t ws : distinct_ids s -> make_vocab s unk nl [] = Ok v -> words_of t ws -> Forall (fun w => In w (v_labels v)) ws ->
    exists is, get_seq is_space v t = Ok (map Some is) /\ get_seq_labels v is = Ok (join_space ws).
  Proof.
    intros Hs H Ht Hws. destruct (known_ids _ _ _ _ _ _ Hs H Hws) as (is&A&B). exists is. unfold get_seq, get_seq_labels. rewrite (words_split _ _ Ht).
    rewrite (get_seq_indices_known _ _ _ A). cbn [bind]. apply make_vocab_parts in H. destruct H as (d&labels&_&_&_&->&_). cbn. rewrite app_nil_r. split; [reflexivity|]. now rewrite B.
  Qed.

  Lemma unknown_words s u nl post v t ws : make_vocab s (LStr u) nl post = Ok v -> words_of t ws ->
    exists ids uid, dget (v_vocab v) u = Some uid /\ get_seq is_space v t = Ok (map Some (ids ++ post)) /\
      Forall2 (fun w i => dget (v_vocab v) w = Some i \/ (dget (v_vocab v) w = None /\ i = uid)) ws ids.
  Proof.
    intros H Ht. apply make_vocab_parts in H. destruct H as (d&labels&Hp&Hv&Hl&Hpost&Hu&Hun). cbn [to_id] in Hu. apply bind_Ok in Hu. destruct Hu as (uid&Hid&Hu). apply Ok_inj in Hu. rewrite <- Hu in Hun. destruct Hun as (l&_&Hun).
    apply label_to_id_spec in Hid. exists (map (fun k => match dget d k with Some i => i | None => uid end) ws), uid. rewrite Hv. split; [exact Hid|]. unfold get_seq. rewrite (words_split _ _ Ht), Hpost. unfold get_seq_indices. rewrite Hun, Hv, <- Hu. cbn [bind]. split.
    - rewrite map_app, map_map. f_equal. f_equal. apply map_ext. intros k. now destruct (dget d k).
    - clear. induction ws as [|w ws IH]; cbn; constructor; [|exact IH]. destruct (dget d w); auto.
  Qed.
  Lemma no_unknown s nl post v t ws : make_vocab s LNone nl post = Ok v -> words_of t ws ->
    (forall ids, Forall2 (fun w i => dget (v_vocab v) w = Some i) ws ids -> get_seq is_space v t = Ok (map Some (ids ++ post)))
    /\ (Exists (fun w => dget (v_vocab v) w = None) ws -> get_seq is_space v t = Err KeyError).
  Proof.
    intros H Ht. apply make_vocab_parts in H. destruct H as (d&labels&Hp&Hv&Hl&Hpost&Hu&Hun). cbn [to_id] in Hu. apply Ok_inj in Hu. rewrite <- Hu in Hun. unfold get_seq. rewrite (words_split _ _ Ht), Hpost. split.
    - intros ids Hids. rewrite (get_seq_indices_known _ _ _ Hids). cbn [bind]. now rewrite map_app.
    - intros He. unfold get_seq_indices. rewrite Hun. assert (G : mapM (fun k => let* i := label_to_id (v_vocab v) k in Ok (Some i)) ws = Err KeyError).
      { clear - He. induction ws as [|w ws IH]; [inversion He|]. cbn [mapM]. unfold label_to_id at 1. destruct (dget (v_vocab v) w) as [i|] eqn:E; cbn [bind]; [|reflexivity]. rewrite IH; [reflexivity|]. inversion He; subst; [congruence|assumption]. }
      now rewrite G.
  Qed.
End Text.

(* ---------- characters ---------- *)
Lemma char_round_trip s unk nl v seq t : distinct_labels s -> make_vocab s unk nl [] = Ok v ->
  Forall (fun l => length l = 1%nat) (v_labels v) -> Forall (fun i => 0 <= i) seq -> char_get_seq_labels v seq = Ok t -> char_get_seq v t = Ok (map Some seq).
Proof.
  intros Hs H Hw Hseq Ht. unfold char_get_seq_labels in Ht. apply bind_Ok in Ht. destruct Ht as (ls&Hls&Ht). apply Ok_inj in Ht. subst t.
  destruct (seq_labels_spec _ _ _ _ _ _ Hs H Hseq _ Hls) as [A B]. unfold char_get_seq. assert (E : map sing (concat ls) = ls).
  { rewrite Forall_forall in Hw. assert (G : forall l, In l ls -> length l = 1%nat) by auto. clear - G. induction ls as [|l ls IH]; [reflexivity|]. cbn. rewrite map_app, IH by (intros x Hx; apply G; now right). specialize (G l (or_introl eq_refl)). destruct l as [|c [|c' l]]; try discriminate. reflexivity. }
  rewrite E, (get_seq_indices_known _ _ _ A). cbn [bind]. apply make_vocab_parts in H. destruct H as (d&labels&_&_&_&->&_). cbn. now rewrite app_nil_r.
Qed.
Lemma char_sentence_round_trip s unk nl v t : distinct_ids s -> make_vocab s unk nl [] = Ok v -> Forall (fun c => In [c] (v_labels v)) t ->
  exists is, char_get_seq v t = Ok (map Some is) /\ char_get_seq_labels v is = Ok t.
Proof.
  intros Hs H Hw. destruct (known_ids (fun _ => false) s unk nl [] v (map sing t) Hs H) as (is&A&B).
  { rewrite Forall_forall in *. intros w Hin. apply in_map_iff in Hin. destruct Hin as (c&<-&Hc). now apply Hw. }
  exists is. unfold char_get_seq, char_get_seq_labels. rewrite (get_seq_indices_known _ _ _ A), B. cbn [bind]. apply make_vocab_parts in H. destruct H as (d&labels&_&_&_&->&_). cbn. rewrite app_nil_r. split; [reflexivity|]. f_equal. apply concat_sing.
Qed.

(* ---------- UTF-8 ---------- *)
Lemma utf8_char_ok c : scalar_value (Z.of_nat c) <-> is_ok (utf8_char c) = true.
Proof.
  unfold utf8_char, scalar_value. set (z := Z.of_nat c). assert (0 <= z) by (unfold z; lia). clearbody z.
  destruct (z <? 128) eqn:E1; [cbn; split; [reflexivity|lia]|]. destruct (z <? 2048) eqn:E2; [cbn; split; [reflexivity|lia]|].
  destruct ((55296 <=? z) && (z <? 57344)) eqn:E3; [cbn; split; [lia|discriminate]|]. destruct (z <? 65536) eqn:E4; [cbn; split; [reflexivity|lia]|].
  destruct (z <? 1114112) eqn:E5; cbn; split; try reflexivity; try discriminate; lia.
Qed.
Lemma utf8_char_bytes c bs : utf8_char c = Ok bs -> Forall (fun b => 0 <= b < 256) bs.
Proof.
  unfold utf8_char. set (z := Z.of_nat c). assert (0 <= z) by (unfold z; lia). clearbody z.
  destruct (z <? 128) eqn:E1; [intros HH; apply Ok_inj in HH; subst bs; repeat (apply Forall_cons; [lia|]); apply Forall_nil|]. destruct (z <? 2048) eqn:E2; [intros HH; apply Ok_inj in HH; subst bs; repeat (apply Forall_cons; [lia|]); apply Forall_nil|].
  destruct ((55296 <=? z) && (z <? 57344)) eqn:E3; [discriminate|]. destruct (z <? 65536) eqn:E4; [intros HH; apply Ok_inj in HH; subst bs; repeat (apply Forall_cons; [lia|]); apply Forall_nil|].
  destruct (z <? 1114112) eqn:E5; [intros HH; apply Ok_inj in HH; subst bs; repeat (apply Forall_cons; [lia|]); apply Forall_nil|discriminate].
Qed.
Lemma utf8_decode_char c bs rest : utf8_char c = Ok bs -> utf8_decode (bs ++ rest) = let* t := utf8_decode rest in Ok (Z.of_nat c :: t).
Proof.
  unfold utf8_char. set (z := Z.of_nat c). assert (0 <= z) by (unfold z; lia). clearbody z.
  destruct (z <? 128) eqn:E1.
  { intros HH; apply Ok_inj in HH; subst bs. cbn [app utf8_decode]. rewrite E1. reflexivity. }
  destruct (z <? 2048) eqn:E2.
  { intros HH; apply Ok_inj in HH; subst bs. cbn [app utf8_decode]. replace (192 + z / 64 <? 128) with false by lia.
    replace ((194 <=? 192 + z / 64) && (192 + z / 64 <? 224) && is_cont (128 + z mod 64)) with true by (unfold is_cont; lia).
    replace ((192 + z / 64 - 192) * 64 + (128 + z mod 64 - 128)) with z by lia. reflexivity. }
  destruct ((55296 <=? z) && (z <? 57344)) eqn:E3; [discriminate|]. destruct (z <? 65536) eqn:E4.
  { intros HH; apply Ok_inj in HH; subst bs. cbn [app utf8_decode]. replace (224 + z / 4096 <? 128) with false by lia.
    replace ((194 <=? 224 + z / 4096) && (224 + z / 4096 <? 224) && is_cont (128 + (z / 64) mod 64)) with false by lia.
    replace ((224 <=? 224 + z / 4096) && (224 + z / 4096 <? 240) && is_cont (128 + (z / 64) mod 64) && is_cont (128 + z mod 64)
      && negb ((224 + z / 4096 =? 224) && (128 + (z / 64) mod 64 <? 160)) && negb ((224 + z / 4096 =? 237) && (160 <=? 128 + (z / 64) mod 64))) with true by (unfold is_cont; lia).
    replace ((224 + z / 4096 - 224) * 4096 + (128 + (z / 64) mod 64 - 128) * 64 + (128 + z mod 64 - 128)) with z by lia. reflexivity. }
  destruct (z <? 1114112) eqn:E5; [|discriminate]. intros HH; apply Ok_inj in HH; subst bs. cbn [app utf8_decode]. replace (240 + z / 262144 <? 128) with false by lia.
  replace ((194 <=? 240 + z / 262144) && (240 + z / 262144 <? 224) && is_cont (128 + (z / 4096) mod 64)) with false by lia.
  replace ((224 <=? 240 + z / 262144) && (240 + z / 262144 <? 240) && is_cont (128 + (z / 4096) mod 64) && is_cont (128 + (z / 64) mod 64)
      && negb ((240 + z / 262144 =? 224) && (128 + (z / 4096) mod 64 <? 160)) && negb ((240 + z / 262144 =? 237) && (160 <=? 128 + (z / 4096) mod 64))) with false by lia.
  replace ((240 <=? 240 + z / 262144) && (240 + z / 262144 <? 245) && is_cont (128 + (z / 4096) mod 64) && is_cont (128 + (z / 64) mod 64) && is_cont (128 + z mod 64)
      && negb ((240 + z / 262144 =? 240) && (128 + (z / 4096) mod 64 <? 144)) && negb ((240 + z / 262144 =? 244) && (144 <=? 128 + (z / 4096) mod 64))) with true by (unfold is_cont; lia).
  replace ((240 + z / 262144 - 240) * 262144 + (128 + (z / 4096) mod 64 - 128) * 4096 + (128 + (z / 64) mod 64 - 128) * 64 + (128 + z mod 64 - 128)) with z by lia. reflexivity.
Qed.
Lemma utf8_encode_ok s : Forall (fun c => scalar_value (Z.of_nat c)) s <-> exists bs, utf8_get_seq [] s = Ok bs.
Proof.
  unfold utf8_get_seq. split.
  - intros H. assert (G : exists bss, mapM utf8_char s = Ok bss).
    { induction H as [|c s Hc H (bss&IH)]; [now eexists|]. apply utf8_char_ok in Hc. cbn [mapM]. destruct (utf8_char c) as [b|]; [|discriminate]. cbn [bind]. rewrite IH. now eexists. }
    destruct G as (bss&->). now eexists.
  - intros (bs&H). apply bind_Ok in H. destruct H as (bss&H&_). apply mapM_Ok_Forall2 in H. induction H as [|c b s bss Hc H IH]; constructor; auto. apply utf8_char_ok. now rewrite Hc.
Qed.
Lemma utf8_round_trip s bs : utf8_get_seq [] s = Ok bs -> Forall (fun b => 0 <= b < 256) bs /\ utf8_get_seq_labels bs = Ok (map Z.of_nat s).
Proof.
  unfold utf8_get_seq, utf8_get_seq_labels. intros H. apply bind_Ok in H. destruct H as (bss&H&Hb). apply Ok_inj in Hb. rewrite app_nil_r in Hb. subst bs. apply mapM_Ok_Forall2 in H.
  assert (G : Forall (fun b => 0 <= b < 256) (concat bss) /\ utf8_decode (concat bss) = Ok (map Z.of_nat s)).
  { induction H as [|c b s bss Hc H (IH1&IH2)]; [split; [constructor|reflexivity]|]. cbn [concat]. split; [apply Forall_app; split; [now apply utf8_char_bytes in Hc|exact IH1]|]. rewrite (utf8_decode_char _ _ _ Hc), IH2. reflexivity. }
  destruct G as [A B]. split; [exact A|]. replace (forallb _ (concat bss)) with true; [exact B|]. symmetry. apply forallb_forall. rewrite Forall_forall in A. intros b Hbin. specialize (A b Hbin). lia.
Qed.
Lemma utf8_decode_inv n : forall bs t, (length bs <= n)%nat -> Forall (fun b => 0 <= b < 256) bs -> utf8_decode bs = Ok t ->
  Forall scalar_value t /\ exists bss, mapM utf8_char (map Z.to_nat t) = Ok bss /\ concat bss = bs.
Proof.
  induction n as [|n IH]; intros bs t Hn Hb H.
  { destruct bs; [|cbn in Hn; lia]. cbn in H. apply Ok_inj in H. subst t. split; [constructor|]. exists []. auto. }
  assert (Step : forall c pre rest t', bs = pre ++ rest -> pre <> [] -> scalar_value c -> utf8_char (Z.to_nat c) = Ok pre -> utf8_decode rest = Ok t' ->
    Forall scalar_value (c :: t') /\ exists bss, mapM utf8_char (map Z.to_nat (c :: t')) = Ok bss /\ concat bss = bs).
  { intros c pre rest t' E Hp Hc He Hd. subst bs. apply Forall_app in Hb. destruct Hb as [_ Hb]. destruct (IH rest t') as (A&bss&B1&B2).
    - rewrite app_length in Hn. destruct pre; [contradiction|]. cbn in Hn. lia.
    - exact Hb.
    - exact Hd.
    - split; [now constructor|]. exists (pre :: bss). cbn [map mapM]. rewrite He. cbn [bind]. rewrite B1. cbn [bind concat]. now rewrite B2. }
  destruct bs as [|b0 r0]; [cbn in H; apply Ok_inj in H; subst t; split; [constructor|exists []; auto]|]. cbn [utf8_decode] in H.
  inversion Hb as [|? ? Hb0 Hb']; subst. destruct (b0 <? 128) eqn:E0.
  { apply bind_Ok in H. destruct H as (t'&Hd&H). apply Ok_inj in H. subst t. apply (Step b0 [b0] r0 t'); [reflexivity|discriminate|unfold scalar_value; lia| |exact Hd].
    unfold utf8_char. rewrite Z2Nat.id by lia. now rewrite E0. }
  destruct r0 as [|b1 r1]; [discriminate|]. inversion Hb' as [|? ? Hb1 Hb'']; subst.
  destruct ((194 <=? b0) && (b0 <? 224) && is_cont b1) eqn:E1.
  { unfold is_cont in E1. apply bind_Ok in H. destruct H as (t'&Hd&H). apply Ok_inj in H. subst t. set (c := (b0 - 192) * 64 + (b1 - 128)) in *.
    assert (Hc : 128 <= c < 2048) by lia. apply (Step c [b0; b1] r1 t'); [reflexivity|discriminate|unfold scalar_value; lia| |exact Hd].
    unfold utf8_char. rewrite Z2Nat.id by lia. replace (c <? 128) with false by lia. replace (c <? 2048) with true by lia. replace (192 + c / 64) with b0 by lia. replace (128 + c mod 64) with b1 by lia. reflexivity. }
  destruct r1 as [|b2 r2]; [discriminate|]. inversion Hb'' as [|? ? Hb2 Hb3]; subst.
  destruct ((224 <=? b0) && (b0 <? 240) && is_cont b1 && is_cont b2 && negb ((b0 =? 224) && (b1 <? 160)) && negb ((b0 =? 237) && (160 <=? b1))) eqn:E2.
  { unfold is_cont in E2. apply bind_Ok in H. destruct H as (t'&Hd&H). apply Ok_inj in H. subst t. set (c := (b0 - 224) * 4096 + (b1 - 128) * 64 + (b2 - 128)) in *.
    assert (Hc : 2048 <= c < 65536 /\ ~ (55296 <= c < 57344)) by lia. apply (Step c [b0; b1; b2] r2 t'); [reflexivity|discriminate|unfold scalar_value; lia| |exact Hd].
    unfold utf8_char. rewrite Z2Nat.id by lia. replace (c <? 128) with false by lia. replace (c <? 2048) with false by lia. replace ((55296 <=? c) && (c <? 57344)) with false by lia. replace (c <? 65536) with true by lia.
    replace (224 + c / 4096) with b0 by lia. replace (128 + (c / 64) mod 64) with b1 by lia. replace (128 + c mod 64) with b2 by lia. reflexivity. }
  destruct r2 as [|b3 r3]; [discriminate|]. inversion Hb3 as [|? ? Hb3' Hb4]; subst.
  destruct ((240 <=? b0) && (b0 <? 245) && is_cont b1 && is_cont b2 && is_cont b3 && negb ((b0 =? 240) && (b1 <? 144)) && negb ((b0 =? 244) && (144 <=? b1))) eqn:E3; [|discriminate].
  unfold is_cont in E3. apply bind_Ok in H. destruct H as (t'&Hd&H). apply Ok_inj in H. subst t. set (c := (b0 - 240) * 262144 + (b1 - 128) * 4096 + (b2 - 128) * 64 + (b3 - 128)) in *.
  assert (Hc : 65536 <= c < 1114112) by lia. apply (Step c [b0; b1; b2; b3] r3 t'); [reflexivity|discriminate|unfold scalar_value; lia| |exact Hd].
  unfold utf8_char. rewrite Z2Nat.id by lia. replace (c <? 128) with false by lia. replace (c <? 2048) with false by lia. replace ((55296 <=? c) && (c <? 57344)) with false by lia. replace (c <? 65536) with false by lia. replace (c <? 1114112) with true by lia.
  replace (240 + c / 262144) with b0 by lia. replace (128 + (c / 4096) mod 64) with b1 by lia. replace (128 + (c / 64) mod 64) with b2 by lia. replace (128 + c mod 64) with b3 by lia. reflexivity.
Qed.
Lemma utf8_labels_inverse bs t : utf8_get_seq_labels bs = Ok t -> Forall scalar_value t /\ utf8_get_seq [] (map Z.to_nat t) = Ok bs.
Proof.
  unfold utf8_get_seq_labels, utf8_get_seq. intros H. apply bind_Ok in H. destruct H as (u&Ha&H). apply assert_Ok in Ha. rewrite forallb_forall in Ha.
  destruct (utf8_decode_inv (length bs) bs t (Nat.le_refl _)) as (A&bss&B1&B2); [|exact H|].
  - apply Forall_forall. intros b Hb. specialize (Ha b Hb). lia.
  - split; [exact A|]. rewrite B1. cbn [bind]. now rewrite app_nil_r, B2.
Qed.

(* ---------- create_vocab_from_labels ---------- *)
Lemma enum_singles (labels : list str) : forall i, Forall (fun l => length l = 1%nat) labels ->
  forallb (fun il => (nth 0%nat (snd il) 0%nat <=? 255)%nat && (nth 0%nat (snd il) 0%nat =? fst il)%nat) (enumerate_from i labels) = true
  <-> (labels = map (fun i => [i]) (seq i (length labels)) /\ (labels <> [] -> (i + length labels <= 256)%nat)).
Proof.
  induction labels as [|l labels IH]; intros i HF; cbn [enumerate_from forallb length seq map]; [split; [intros _; split; [reflexivity|congruence]|reflexivity]|].
  inversion HF as [|? ? Hl HF']; subst. destruct l as [|c [|? ?]]; try discriminate Hl. cbn [fst snd nth].
  rewrite !andb_true_iff, Nat.leb_le, Nat.eqb_eq, (IH (S i) HF'). split.
  - intros [[H1 H2] [H3 H4]]. subst c. split; [now rewrite H3 at 1|]. intros _. destruct labels as [|l0 ls]; [cbn; lia|].
    specialize (H4 ltac:(discriminate)). cbn [length] in *. lia.
  - intros [H1 H2]. specialize (H2 ltac:(discriminate)). injection H1 as Hc H1. subst c. repeat split; [lia|exact H1|intros _; lia].
Qed.
Lemma from_labels_class labels post :
  let c := fst (create_vocab_from_labels labels post) in
  let single := (length labels < 1000)%nat /\ Forall (fun l => length l = 1%nat) labels in
  (c = CUtf8 <-> labels = map (fun i => [i]) (seq 0 256))
  /\ (c = CChars <-> single /\ labels <> map (fun i => [i]) (seq 0 256))
  /\ (c = CWords <-> ~ single)
  /\ (c <> CUtf8 -> snd (create_vocab_from_labels labels post) = post).
Proof.
  intros c single.
  assert (S0 : labels = map (fun i => [i]) (seq 0 256) -> single).
  { intros ->. subst single. split; [rewrite map_length, seq_length; apply Nat.ltb_lt; reflexivity|]. apply Forall_forall. intros x Hx.
    apply in_map_iff in Hx. now destruct Hx as (i&<-&_). }
  subst c. unfold create_vocab_from_labels.
  destruct ((length labels <? 1000)%nat && forallb (fun l => (length l =? 1)%nat) labels) eqn:E1.
  - apply andb_true_iff in E1. destruct E1 as [E1 E2]. apply Nat.ltb_lt in E1. rewrite forallb_forall in E2.
    assert (HF : Forall (fun l => length l = 1%nat) labels) by (apply Forall_forall; intros x Hx; now apply Nat.eqb_eq, E2).
    assert (Hs : single) by (split; assumption).
    match goal with |- context [if ?b then (CUtf8, []) else _] => destruct b eqn:E3 end.
    + apply andb_true_iff in E3. destruct E3 as [E3 E4]. apply Nat.eqb_eq in E3. apply (enum_singles _ 0%nat HF) in E4. destruct E4 as [E4 _].
      rewrite E3 in E4. cbn [fst snd]. repeat split; try tauto; try congruence; discriminate.
    + assert (N : labels <> map (fun i => [i]) (seq 0 256)).
      { intros H. assert (L : length labels = 256%nat) by (rewrite H, map_length, seq_length; reflexivity).
        apply andb_false_iff in E3. destruct E3 as [E3|E3]; [apply Nat.eqb_neq in E3; contradiction|].
        enough (X : true = false) by discriminate. rewrite <- E3. symmetry. apply (enum_singles _ 0%nat HF). rewrite L. split; [exact H|lia]. }
      cbn [fst snd]. repeat split; try tauto; try congruence; try discriminate.
  - assert (Hs : ~ single).
    { intros [H1 H2]. enough (X : true = false) by discriminate. rewrite <- E1. symmetry. apply andb_true_iff. split; [now apply Nat.ltb_lt|].
      rewrite forallb_forall. rewrite Forall_forall in H2. intros x Hx. now apply Nat.eqb_eq, H2. }
    cbn [fst snd]. repeat split; try tauto; try congruence; try discriminate.
Qed.
