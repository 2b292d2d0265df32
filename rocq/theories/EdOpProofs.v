(** Proofs about the native edit distance operations. *)
From Verif Require Import Base ListLemmas EditModel EditSpec EditProofs EdOpModel EdOpSpec.

(** ** Memory *)
Lemma store_ok : forall A (l : list A) i v, i < length l -> exists l', store l i v = Some l' /\ length l' = length l /\
  (forall j, nth_error l' j = if j =? i then Some v else nth_error l j).
Proof.
  intros A l. induction l as [|x l IH]; intros i v Hi; [cbn in Hi; lia|]. destruct i as [|i].
  - exists (v :: l). repeat split. intros [|j]; reflexivity.
  - cbn in Hi. destruct (IH i v) as (l' & E & L & N); [lia|]. exists (x :: l'). cbn [store]. rewrite E. split; [reflexivity|].
    split; [cbn; lia|]. intros [|j]; [reflexivity|]. cbn [nth_error Nat.eqb]. apply N.
Qed.
Lemma load_some : forall A (l : list A) i, i < length l -> exists v, load l i = Some v.
Proof. intros A l i H. unfold load. destruct (nth_error l i) eqn:E; [eauto|]. apply nth_error_None in E. lia. Qed.

(** ** Edit distances *)
Definition dst (a b : list Z) : nat := dist Z.eqb a b.
Lemma Zeqb_spec : forall x y : Z, (x =? y)%Z = true <-> x = y.
Proof. exact Z.eqb_eq. Qed.
Lemma dst_is : forall a b, is_edit_distance a b (dst a b).
Proof. intros. apply dist_is. exact Zeqb_spec. Qed.
Lemma is_ed_unique : forall (a b : list Z) n m, is_edit_distance a b n -> is_edit_distance a b m -> n = m.
Proof. intros a b n m [H1 H2] [H3 H4]. apply H2 in H3. apply H4 in H1. lia. Qed.
Lemma dst_unique : forall a b n, is_edit_distance a b n -> n = dst a b.
Proof. intros a b n H. eapply is_ed_unique; [exact H|apply dst_is]. Qed.
Lemma dst_nil_l : forall b, dst [] b = length b.
Proof. reflexivity. Qed.
Lemma dst_nil_r : forall a, dst a [] = length a.
Proof. intros. apply dist_nil_r. Qed.
Lemma dst_snoc : forall a x b y, dst (a ++ [x]) (b ++ [y]) =
  Nat.min (Nat.min (dst a (b ++ [y]) + 1) (dst (a ++ [x]) b + 1)) (dst a b + (if (x =? y)%Z then 0 else 1)).
Proof.
  intros. unfold dst. rewrite <- (dist_rev Z.eqb Zeqb_spec (a ++ [x]) (b ++ [y])), !rev_app_distr. cbn [rev app].
  rewrite dist_cons. rewrite <- (dist_rev Z.eqb Zeqb_spec a (b ++ [y])), <- (dist_rev Z.eqb Zeqb_spec (a ++ [x]) b), <- (dist_rev Z.eqb Zeqb_spec a b).
  rewrite !rev_app_distr. reflexivity.
Qed.
Lemma dst_al : forall a b, al (dst a b) a b.
Proof. intros. apply dist_al. exact Zeqb_spec. Qed.
Lemma dst_min : forall n a b, al n a b -> dst a b <= n.
Proof. intros. apply dist_min; [exact Zeqb_spec|assumption]. Qed.
(** An alignment can be cut behind a prefix of the first sequence. *)
Lemma al_cut : forall n (c b : list Z), al n c b -> forall a s, c = a ++ s ->
  exists b1 b2 n1 n2, b = b1 ++ b2 /\ n = n1 + n2 /\ al n1 a b1 /\ al n2 s b2.
Proof.
  intros n c b H. induction H as [|n x c b H IH|n x y c b H IH|n y c b H IH|n x c b H IH]; intros a s E.
  - symmetry in E. apply app_eq_nil in E. destruct E as [-> ->]. exists [], [], 0, 0. repeat split; constructor.
  - destruct a as [|z a].
    + cbn [app] in E. subst s. exists [], (x :: b), 0, n. repeat split; constructor. exact H.
    + cbn [app] in E. injection E as <- E. destruct (IH a s E) as (b1 & b2 & n1 & n2 & -> & -> & H1 & H2).
      exists (x :: b1), b2, n1, n2. repeat split; [constructor; exact H1|exact H2].
  - destruct a as [|z a].
    + cbn [app] in E. subst s. exists [], (y :: b), 0, (S n). repeat split; constructor. exact H.
    + cbn [app] in E. injection E as <- E. destruct (IH a s E) as (b1 & b2 & n1 & n2 & -> & -> & H1 & H2).
      exists (y :: b1), b2, (S n1), n2. repeat split; [constructor; exact H1|exact H2].
  - destruct (IH a s E) as (b1 & b2 & n1 & n2 & -> & -> & H1 & H2).
    exists (y :: b1), b2, (S n1), n2. repeat split; [constructor; exact H1|exact H2].
  - destruct a as [|z a].
    + cbn [app] in E. subst s. exists [], b, 0, (S n). repeat split; constructor. exact H.
    + cbn [app] in E. injection E as <- E. destruct (IH a s E) as (b1 & b2 & n1 & n2 & -> & -> & H1 & H2).
      exists b1, b2, (S n1), n2. repeat split; [constructor; exact H1|exact H2].
Qed.
(** The optimal completion is the least distance to a prefix of the reference. *)
Lemma optimal_completion_prefix : forall (a b : list Z) d,
  (exists t, t <= length b /\ d = dst a (firstn t b)) -> (forall t, t <= length b -> d <= dst a (firstn t b)) ->
  is_optimal_completion a b d.
Proof.
  intros a b d (t & Ht & E) HM.
  assert (HL : forall s m, is_edit_distance (a ++ s) b m -> d <= m).
  { intros s m H. apply dst_unique in H. subst m. destruct (al_cut _ _ _ (dst_al (a ++ s) b) a s eq_refl) as (b1 & b2 & n1 & n2 & Eb & En & H1 & H2).
    rewrite En. apply dst_min in H1. specialize (HM (length b1)). rewrite Eb, app_length, firstn_app, firstn_all, Nat.sub_diag in HM.
    cbn [firstn] in HM. rewrite app_nil_r in HM. lia. }
  split; [|exact HL]. exists (skipn t b).
  assert (dst (a ++ skipn t b) b <= d).
  { subst d. apply dst_min. replace (dst a (firstn t b)) with (dst a (firstn t b) + 0) by lia.
    rewrite <- (firstn_skipn t b) at 3. apply al_app; [apply dst_al|apply al_refl]. }
  pose proof (HL _ _ (dst_is (a ++ skipn t b) b)). replace d with (dst (a ++ skipn t b) b) by lia. apply dst_is.
Qed.
Lemma optimal_completion_unique : forall (a b : list Z) n m, is_optimal_completion a b n -> is_optimal_completion a b m -> n = m.
Proof. intros a b n m [(s & H1) H2] [(s' & H3) H4]. apply H2 in H3. apply H4 in H1. lia. Qed.

(** ** The table of one batch entry *)
Definition tab (na nb : nat) (a b : list Z) (k i j : nat) : nat := dst (seq_of na a k i) (seq_of nb b k j).
Lemma seq_of_0 : forall w arr k, seq_of w arr k 0 = [].
Proof. reflexivity. Qed.
Lemma seq_of_len : forall w arr n k i, length arr = n * w -> k < n -> i <= w -> length (seq_of w arr k i) = i.
Proof. intros w arr n k i L Hk Hi. unfold seq_of. rewrite firstn_length, skipn_length. assert (k * w + w <= n * w) by nia. lia. Qed.
Lemma seq_of_S : forall w arr n k i, length arr = n * w -> k < n -> i < w ->
  exists x, nth_error arr (k * w + i) = Some x /\ seq_of w arr k (S i) = seq_of w arr k i ++ [x].
Proof.
  intros w arr n k i L Hk Hi. assert (k * w + w <= n * w) by nia.
  destruct (nth_error arr (k * w + i)) as [x|] eqn:E; [|apply nth_error_None in E; lia]. exists x. split; [reflexivity|].
  unfold seq_of. rewrite <- (firstn_skipn (k * w) arr), nth_error_app2 in E by (rewrite firstn_length; lia).
  rewrite firstn_length in E. replace (k * w + i - Nat.min (k * w) (length arr)) with i in E by lia. clear - E. revert i E.
  induction (skipn (k * w) arr) as [|y l IH]; intros i E; [destruct i; discriminate|]. destruct i as [|i].
  - injection E as ->. reflexivity.
  - cbn [nth_error] in E. cbn [firstn app]. f_equal. exact (IH i E).
Qed.

Section Run.
Variables (na nb n : nat) (a b : list Z).
Hypothesis (La : length a = n * na) (Lb : length b = n * nb).
Notation M := (max_num_entries na nb).
Notation T := (tab na nb a b).
Definition entry (d : nat) (buf : list Z) (k e : nat) : Prop :=
  nth_error buf (k * M + e) = Some (Z.of_nat (T k (fst (cell na d e)) (snd (cell na d e)))).
Definition full (d : nat) (buf : list Z) : Prop := forall k e, k < n -> e < num_entries na nb d -> entry d buf k e.

Lemma entries_le : forall d, d <= na + nb -> num_entries na nb d <= M.
Proof. intros d H. unfold num_entries, max_num_entries. destruct (Nat.leb_spec d na); lia. Qed.
Lemma entries_pos : forall d, d <= na + nb -> 0 < num_entries na nb d.
Proof. intros d H. unfold num_entries. destruct (Nat.leb_spec d na); lia. Qed.
Lemma cell_range : forall d e, d <= na + nb -> e < num_entries na nb d ->
  fst (cell na d e) <= na /\ snd (cell na d e) <= nb /\ fst (cell na d e) + snd (cell na d e) = d.
Proof. intros d e Hd He. unfold num_entries in He. unfold cell. destruct (Nat.leb_spec d na); cbn [fst snd]; lia. Qed.
Lemma cell_onto : forall i j, i <= na -> j <= nb -> exists e, e < num_entries na nb (i + j) /\ cell na (i + j) e = (i, j).
Proof.
  intros i j Hi Hj. unfold num_entries, cell. destruct (Nat.leb_spec (i + j) na).
  - exists j. split; [lia|]. f_equal; lia.
  - exists (na - i). split; [lia|]. f_equal; lia.
Qed.
Lemma tab_0_l : forall k j, k < n -> j <= nb -> T k 0 j = j.
Proof. intros k j Hk Hj. unfold tab. rewrite seq_of_0, dst_nil_l. eapply seq_of_len; eassumption. Qed.
Lemma tab_0_r : forall k i, k < n -> i <= na -> T k i 0 = i.
Proof. intros k j Hk Hj. unfold tab. rewrite seq_of_0, dst_nil_r. eapply seq_of_len; eassumption. Qed.

Lemma new_dist_ok : forall d k e last1 last2, d <= na + nb -> k < n -> e < num_entries na nb d ->
  (d >= 2 -> full (d - 2) last1) -> (d >= 1 -> full (d - 1) last2) ->
  new_dist na nb d k e a b last1 last2 = Some (Z.of_nat (T k (fst (cell na d e)) (snd (cell na d e)))).
Proof.
  intros d k e last1 last2 Hd Hk He F1 F2. destruct (cell_range d e Hd He) as (R1 & R2 & R3).
  unfold new_dist. destruct (cell na d e) as [ta tb] eqn:Ec. cbn [fst snd] in *.
  destruct (Nat.eqb_spec ta 0) as [->|Ha]; [rewrite tab_0_l by assumption; reflexivity|].
  destruct (Nat.eqb_spec tb 0) as [->|Hb]; [rewrite tab_0_r by assumption; reflexivity|].
  destruct ta as [|i]; [congruence|]. destruct tb as [|j]; [congruence|].
  specialize (F1 ltac:(lia)). specialize (F2 ltac:(lia)).
  destruct (seq_of_S na a n k i La Hk ltac:(lia)) as (x & Ex & Sx). destruct (seq_of_S nb b n k j Lb Hk ltac:(lia)) as (y & Ey & Sy).
  assert (G1 : exists q, (if d - 1 <? na then sub1 (k * M + e) else if d - 1 =? na then Some (k * M + e) else Some (k * M + e + 1)) = Some q
      /\ nth_error last1 q = Some (Z.of_nat (T k i j))).
  { unfold cell in Ec. unfold num_entries in He. destruct (Nat.leb_spec d na) as [C|C].
    - apply pair_equal_spec in Ec. destruct Ec as [Ec1 Ec2]. replace (d - 1 <? na) with true by (symmetry; apply Nat.ltb_lt; lia).
      exists (k * M + j). split; [unfold sub1; replace (k * M + e) with (S (k * M + j)) by lia; reflexivity|].
      assert (J : j < num_entries na nb (d - 2)) by (unfold num_entries; replace (d - 2 <=? na) with true by (symmetry; apply Nat.leb_le; lia); lia).
      pose proof (F1 k j Hk J) as G. unfold entry, cell in G. replace (d - 2 <=? na) with true in G by (symmetry; apply Nat.leb_le; lia).
      cbn [fst snd] in G. replace (d - 2 - j) with i in G by lia. exact G.
    - apply pair_equal_spec in Ec. destruct Ec as [Ec1 Ec2]. replace (d - 1 <? na) with false by (symmetry; apply Nat.ltb_ge; lia).
      destruct (Nat.eqb_spec (d - 1) na) as [C2|C2].
      + exists (k * M + e). split; [reflexivity|].
        assert (J : e < num_entries na nb (d - 2)) by (unfold num_entries; replace (d - 2 <=? na) with true by (symmetry; apply Nat.leb_le; lia); lia).
        pose proof (F1 k e Hk J) as G. unfold entry, cell in G. replace (d - 2 <=? na) with true in G by (symmetry; apply Nat.leb_le; lia).
        cbn [fst snd] in G. replace (d - 2 - e) with i in G by lia. replace e with j in G at 2 by lia. exact G.
      + exists (k * M + (e + 1)). split; [f_equal; lia|].
        destruct (Nat.eq_dec (d - 2) na) as [C3|C3].
        * assert (J : e + 1 < num_entries na nb (d - 2)) by (unfold num_entries; replace (d - 2 <=? na) with true by (symmetry; apply Nat.leb_le; lia); lia).
          pose proof (F1 k (e + 1) Hk J) as G. unfold entry, cell in G. replace (d - 2 <=? na) with true in G by (symmetry; apply Nat.leb_le; lia).
          cbn [fst snd] in G. replace (d - 2 - (e + 1)) with i in G by lia. replace (e + 1) with j in G at 2 by lia. exact G.
        * assert (J : e + 1 < num_entries na nb (d - 2)) by (unfold num_entries; replace (d - 2 <=? na) with false by (symmetry; apply Nat.leb_gt; lia); lia).
          pose proof (F1 k (e + 1) Hk J) as G. unfold entry, cell in G. replace (d - 2 <=? na) with false in G by (symmetry; apply Nat.leb_gt; lia).
          cbn [fst snd] in G. replace (na - (e + 1)) with i in G by lia. replace (d - 2 - na + (e + 1)) with j in G by lia. exact G. }
  assert (G2 : exists q, (if d <=? na then sub1 (k * M + e) else Some (k * M + e)) = Some q
      /\ nth_error last2 q = Some (Z.of_nat (T k (S i) j)) /\ nth_error last2 (q + 1) = Some (Z.of_nat (T k i (S j)))).
  { unfold cell in Ec. unfold num_entries in He. destruct (Nat.leb_spec d na) as [C|C].
    - apply pair_equal_spec in Ec. destruct Ec as [Ec1 Ec2].
      exists (k * M + j). split; [unfold sub1; replace (k * M + e) with (S (k * M + j)) by lia; reflexivity|].
      assert (J : j + 1 < num_entries na nb (d - 1)) by (unfold num_entries; replace (d - 1 <=? na) with true by (symmetry; apply Nat.leb_le; lia); lia).
      split.
      + pose proof (F2 k j Hk ltac:(lia)) as G. unfold entry, cell in G. replace (d - 1 <=? na) with true in G by (symmetry; apply Nat.leb_le; lia).
        cbn [fst snd] in G. replace (d - 1 - j) with (S i) in G by lia. exact G.
      + pose proof (F2 k (j + 1) Hk J) as G. unfold entry, cell in G. replace (d - 1 <=? na) with true in G by (symmetry; apply Nat.leb_le; lia).
        cbn [fst snd] in G. replace (d - 1 - (j + 1)) with i in G by lia. rewrite Nat.add_assoc in G. replace (j + 1) with (S j) in G by lia. exact G.
    - apply pair_equal_spec in Ec. destruct Ec as [Ec1 Ec2]. exists (k * M + e). split; [reflexivity|].
      destruct (Nat.eq_dec (d - 1) na) as [C3|C3].
      + assert (J : e + 1 < num_entries na nb (d - 1)) by (unfold num_entries; replace (d - 1 <=? na) with true by (symmetry; apply Nat.leb_le; lia); lia).
        split.
        * pose proof (F2 k e Hk ltac:(lia)) as G. unfold entry, cell in G. replace (d - 1 <=? na) with true in G by (symmetry; apply Nat.leb_le; lia).
          cbn [fst snd] in G. replace (d - 1 - e) with (S i) in G by lia. replace e with j in G at 2 by lia. exact G.
        * pose proof (F2 k (e + 1) Hk J) as G. unfold entry, cell in G. replace (d - 1 <=? na) with true in G by (symmetry; apply Nat.leb_le; lia).
          cbn [fst snd] in G. replace (d - 1 - (e + 1)) with i in G by lia. rewrite Nat.add_assoc in G. replace (e + 1) with (S j) in G by lia. exact G.
      + assert (J : e + 1 < num_entries na nb (d - 1)) by (unfold num_entries; replace (d - 1 <=? na) with false by (symmetry; apply Nat.leb_gt; lia); lia).
        split.
        * pose proof (F2 k e Hk ltac:(lia)) as G. unfold entry, cell in G. replace (d - 1 <=? na) with false in G by (symmetry; apply Nat.leb_gt; lia).
          cbn [fst snd] in G. replace (na - e) with (S i) in G by lia. replace (d - 1 - na + e) with j in G by lia. exact G.
        * pose proof (F2 k (e + 1) Hk J) as G. unfold entry, cell in G. replace (d - 1 <=? na) with false in G by (symmetry; apply Nat.leb_gt; lia).
          cbn [fst snd] in G. replace (na - (e + 1)) with i in G by lia. rewrite Nat.add_assoc in G. replace (d - 1 - na + (e + 1)) with (S j) in G by lia. exact G. }
  destruct G1 as (q1 & -> & N1). destruct G2 as (q2 & -> & N2 & N3). unfold obind, load.
  rewrite N1, N2, N3. replace (k * na + S i - 1) with (k * na + i) by lia. replace (k * nb + S j - 1) with (k * nb + j) by lia. rewrite Ex, Ey.
  f_equal. unfold tab. rewrite Sx, Sy, dst_snoc, <- Sx, <- Sy. destruct (x =? y)%Z; lia.
Qed.

(** The runs of all kernel calls, for any effect [f] of the entries and any relation [P] between the visited cells and the result *)
Variables (f : sink) (P : list (nat * nat * nat) -> list Z -> Prop).
Hypothesis Pstep : forall vs r k i j, k < n -> i <= na -> j <= nb -> P vs r ->
  exists r', f k i j (Z.of_nat (T k i j)) r = Some r' /\ P ((k, i, j) :: vs) r'.
Definition in_range (v : nat * nat * nat) : Prop := let '(k, i, j) := v in k < n /\ i <= na /\ j <= nb.

Lemma kernel_call : forall d last1 last2 order cur r vs, d <= na + nb ->
  (d >= 2 -> full (d - 2) last1) -> (d >= 1 -> full (d - 1) last2) -> length cur = n * M ->
  (forall i, In i order -> i < n * num_entries na nb d) -> P vs r -> Forall in_range vs ->
  exists cur' r' vs', each (step_kernel f na nb d a b last1 last2) (cur, r) order = Some (cur', r') /\ length cur' = n * M /\
    P vs' r' /\ Forall in_range vs' /\ (forall v, In v vs -> In v vs') /\
    (forall k e, k < n -> e < num_entries na nb d -> entry d cur k e -> entry d cur' k e) /\
    (forall k e, k < n -> e < num_entries na nb d -> In (k * num_entries na nb d + e) order ->
       entry d cur' k e /\ In (k, fst (cell na d e), snd (cell na d e)) vs').
Proof.
  intros d last1 last2 order. induction order as [|idx order IH]; intros cur r vs Hd F1 F2 Lc Ho Hp Hv.
  - exists cur, r, vs. repeat split; auto; contradiction.
  - pose proof (entries_pos d Hd) as Hpos. pose proof (entries_le d Hd) as Hle. set (N := num_entries na nb d) in *.
    assert (Hidx : idx < n * N) by (apply Ho; left; reflexivity).
    assert (Hk : idx / N < n) by (apply Nat.div_lt_upper_bound; lia).
    assert (He : idx mod N < N) by (apply Nat.mod_upper_bound; lia).
    pose proof (Nat.div_mod idx N ltac:(lia)) as DM. set (k0 := idx / N) in *. set (e0 := idx mod N) in *.
    destruct (cell_range d e0 Hd He) as (R1 & R2 & R3).
    cbn [each]. unfold step_kernel at 1. fold N k0 e0. destruct (cell na d e0) as [ta tb] eqn:Ec. cbn [fst snd] in *.
    pose proof (new_dist_ok d k0 e0 last1 last2 Hd Hk He F1 F2) as ND. rewrite Ec in ND. cbn [fst snd] in ND. rewrite ND. cbn [obind].
    destruct (store_ok _ cur (k0 * M + e0) (Z.of_nat (T k0 ta tb))) as (cur1 & Es & L1 & N1); [assert (k0 * M + M <= n * M) by (apply (Nat.mul_le_mono_r (S k0) n M) in Hk; lia); lia|]. rewrite Es. cbn [obind].
    destruct (Pstep vs r k0 ta tb Hk R1 R2 Hp) as (r1 & Ef & Hp1). rewrite Ef. cbn [obind].
    destruct (IH cur1 r1 ((k0, ta, tb) :: vs) Hd F1 F2 ltac:(lia) (fun i Hi => Ho i (or_intror Hi)) Hp1) as (cur' & r' & vs' & E & L' & Hp' & Hv' & Hi' & Hk' & Ho').
    { constructor; [|exact Hv]. cbn. auto. }
    assert (Keep : forall k e, k < n -> e < N -> entry d cur k e -> entry d cur1 k e).
    { intros k e Hk1 He1 G. unfold entry in *. rewrite N1. destruct (Nat.eqb_spec (k * M + e) (k0 * M + e0)) as [Q|Q]; [|exact G].
      assert (k = k0) by nia. assert (e = e0) by nia. subst k e. rewrite Ec. reflexivity. }
    assert (New : entry d cur1 k0 e0).
    { unfold entry. rewrite N1, Nat.eqb_refl, Ec. reflexivity. }
    exists cur', r', vs'. split; [exact E|]. split; [exact L'|]. split; [exact Hp'|]. split; [exact Hv'|].
    split; [intros v Hin; apply Hi'; right; exact Hin|]. split; [intros k e Hk1 He1 G; apply Hk'; auto|].
    intros k e Hk1 He1 [Q|Q].
    + assert (k = k0) by nia. assert (e = e0) by nia. subst k e. split; [apply Hk'; auto|]. apply Hi'. left. rewrite Ec. reflexivity.
    + apply Ho'; assumption.
Qed.

Lemma diagonals_ok : forall order, (forall d, d <= na + nb -> any_order (n * num_entries na nb d) (order d)) ->
  forall fuel d last1 last2 cur r vs, d + fuel = na + nb + 1 ->
  (d >= 2 -> full (d - 2) last1) -> (d >= 1 -> full (d - 1) last2) -> length last1 = n * M -> length last2 = n * M -> length cur = n * M ->
  P vs r -> Forall in_range vs -> (forall k i j, in_range (k, i, j) -> i + j < d -> In (k, i, j) vs) ->
  exists r' vs', diagonals f na nb a b order fuel d last1 last2 cur r = Some r' /\ P vs' r' /\ Forall in_range vs' /\
    (forall v, in_range v -> In v vs').
Proof.
  intros order Ho fuel. induction fuel as [|fuel IH]; intros d last1 last2 cur r vs Hd F1 F2 L1 L2 L3 Hp Hv Hall.
  - exists r, vs. repeat split; auto. intros [[k i] j] H. apply Hall; [exact H|]. cbn in H. lia.
  - cbn [diagonals]. destruct (kernel_call d last1 last2 (order d) cur r vs) as (cur' & r' & vs' & E & L' & Hp' & Hv' & Hi' & _ & Hnew);
      try assumption; [lia|intros i Hi; apply Ho in Hi; [exact Hi|lia]|].
    rewrite E. cbn [obind]. apply (IH (d + 1) last2 cur' last1 r' vs'); try assumption; [lia| | |].
    + intros Hge. replace (d + 1 - 2) with (d - 1) by lia. apply F2. lia.
    + intros _. replace (d + 1 - 1) with d by lia. intros k e Hk He. apply (Hnew k e Hk He). apply Ho; [lia|]. nia.
    + intros k i j H Hlt. destruct (Nat.eq_dec (i + j) d) as [Q|Q]; [|apply Hi', Hall; [exact H|lia]].
      cbn in H. destruct (cell_onto i j) as (e & He & Ec); [lia|lia|]. rewrite Q in He, Ec.
      destruct (Hnew k e) as [_ G]; [lia|exact He| |rewrite Ec in G; exact G]. apply Ho; [lia|]. nia.
Qed.
Theorem run_ok : forall order buf1 buf2 buf3 r, (forall d, d <= na + nb -> any_order (n * num_entries na nb d) (order d)) ->
  length buf1 = n * M -> length buf2 = n * M -> length buf3 = n * M -> P [] r ->
  exists r' vs', run_diagonals f na nb a b order buf1 buf2 buf3 r = Some r' /\ P vs' r' /\ Forall in_range vs' /\ (forall v, in_range v -> In v vs').
Proof.
  intros order buf1 buf2 buf3 r Ho L1 L2 L3 Hp. unfold run_diagonals. apply (diagonals_ok order Ho (na + nb + 1) 0 buf1 buf2 buf3 r []); try assumption; try lia; try constructor.
Qed.
End Run.

(** ** The three operations over the diagonals *)
Lemma seq_of_firstn : forall w arr k i t, t <= i -> firstn t (seq_of w arr k i) = seq_of w arr k t.
Proof. intros. unfold seq_of. rewrite firstn_firstn. f_equal. lia. Qed.
Definition schedule (na nb n : nat) (order : nat -> list nat) : Prop :=
  forall d, d <= na + nb -> any_order (n * num_entries na nb d) (order d).

Theorem edit_distance_op_ok : forall na nb n a b a_len b_len order buf1 buf2 buf3,
  length a = n * na -> length b = n * nb -> length a_len = n -> length b_len = n -> schedule na nb n order ->
  length buf1 = n * max_num_entries na nb -> length buf2 = n * max_num_entries na nb -> length buf3 = n * max_num_entries na nb ->
  exists r, edit_distance_op na nb a a_len b b_len order buf1 buf2 buf3 = Some r /\ length r = n /\
    forall k la lb, nth_error a_len k = Some la -> nth_error b_len k = Some lb ->
      nth_error r k = Some (if (la <=? na) && (lb <=? nb) then Z.of_nat (tab na nb a b k la lb) else (-1)%Z).
Proof.
  intros na nb n a b a_len b_len order buf1 buf2 buf3 La Lb Lal Lbl Ho L1 L2 L3. unfold edit_distance_op.
  set (P := fun (vs : list (nat * nat * nat)) (r : list Z) => length r = n /\ forall k la lb, nth_error a_len k = Some la -> nth_error b_len k = Some lb ->
    (In (k, la, lb) vs -> nth_error r k = Some (Z.of_nat (tab na nb a b k la lb))) /\ (~ In (k, la, lb) vs -> nth_error r k = Some (-1)%Z)).
  destruct (run_ok na nb n a b La Lb (sink_last a_len b_len) P) with (order := order) (buf1 := buf1) (buf2 := buf2) (buf3 := buf3) (r := repeat (-1)%Z (length a_len))
    as (r & vs & E & HP & Hr & Hall); try assumption.
  - intros vs r k i j Hk Hi Hj [HL HP]. unfold sink_last.
    destruct (load_some _ a_len k ltac:(lia)) as (la & Ela). destruct (load_some _ b_len k ltac:(lia)) as (lb & Elb). rewrite Ela, Elb. cbn [obind]. unfold load in *.
    destruct (Nat.eqb_spec i la) as [->|Ni]; [destruct (Nat.eqb_spec j lb) as [->|Nj]|]; cbn [andb].
    + destruct (store_ok _ r k (Z.of_nat (tab na nb a b k la lb)) ltac:(lia)) as (r' & Es & L' & N'). exists r'. split; [exact Es|]. split; [lia|].
      intros k' la' lb' E1 E2. rewrite N'. destruct (Nat.eqb_spec k' k) as [->|Q].
      * rewrite Ela in E1. rewrite Elb in E2. injection E1 as <-. injection E2 as <-. split; [reflexivity|]. intros H. exfalso. apply H. left. reflexivity.
      * destruct (HP k' la' lb' E1 E2) as [H1 H2]. split; intros H.
        -- apply H1. destruct H as [H|H]; [injection H as H _ _; congruence|exact H].
        -- apply H2. intros H'. apply H. right. exact H'.
    + exists r. split; [reflexivity|]. split; [exact HL|]. intros k' la' lb' E1 E2. destruct (HP k' la' lb' E1 E2) as [H1 H2]. split; intros H.
      * apply H1. destruct H as [H|H]; [injection H as <- <- <-; congruence|exact H].
      * apply H2. intros H'. apply H. right. exact H'.
    + exists r. split; [reflexivity|]. split; [exact HL|]. intros k' la' lb' E1 E2. destruct (HP k' la' lb' E1 E2) as [H1 H2]. split; intros H.
      * apply H1. destruct H as [H|H]; [injection H as <- <- <-; congruence|exact H].
      * apply H2. intros H'. apply H. right. exact H'.
  - split; [rewrite repeat_length; exact Lal|]. intros k la lb E1 E2. split; [contradiction|]. intros _.
    assert (k < length a_len) by (apply nth_error_Some; congruence). apply nth_error_repeat. exact H.
  - exists r. split; [exact E|]. destruct HP as [HL HP]. split; [exact HL|]. intros k la lb E1 E2. destruct (HP k la lb E1 E2) as [H1 H2].
    assert (k < n) by (rewrite <- Lal; apply nth_error_Some; congruence).
    destruct (Nat.leb_spec la na) as [Q1|Q1]; [destruct (Nat.leb_spec lb nb) as [Q2|Q2]|]; cbn [andb].
    + apply H1, Hall. cbn. auto.
    + apply H2. intros H'. rewrite Forall_forall in Hr. apply Hr in H'. cbn in H'. lia.
    + apply H2. intros H'. rewrite Forall_forall in Hr. apply Hr in H'. cbn in H'. lia.
Qed.

Theorem optimal_completion_op_ok : forall na nb n a b a_len b_len order buf1 buf2 buf3,
  length a = n * na -> length b = n * nb -> length a_len = n -> length b_len = n -> schedule na nb n order ->
  length buf1 = n * max_num_entries na nb -> length buf2 = n * max_num_entries na nb -> length buf3 = n * max_num_entries na nb ->
  Forall (fun l => l <= nb) b_len -> (Z.of_nat na < int32_max)%Z ->
  exists r, optimal_completion_op na nb a a_len b b_len order buf1 buf2 buf3 = Some r /\ length r = n /\
    forall k la lb, nth_error a_len k = Some la -> nth_error b_len k = Some lb ->
      (na < la -> nth_error r k = Some int32_max) /\
      (la <= na -> exists d, nth_error r k = Some (Z.of_nat d) /\ is_optimal_completion (seq_of na a k la) (seq_of nb b k lb) d).
Proof.
  intros na nb n a b a_len b_len order buf1 buf2 buf3 La Lb Lal Lbl Ho L1 L2 L3 Hbl Hmax. unfold optimal_completion_op.
  set (P := fun (vs : list (nat * nat * nat)) (r : list Z) => length r = n /\ forall k la lb, nth_error a_len k = Some la -> nth_error b_len k = Some lb ->
    exists z, nth_error r k = Some z /\ (forall j, j <= lb -> In (k, la, j) vs -> (z <= Z.of_nat (tab na nb a b k la j))%Z) /\
      (z = int32_max \/ exists j, j <= lb /\ In (k, la, j) vs /\ z = Z.of_nat (tab na nb a b k la j))).
  destruct (run_ok na nb n a b La Lb (sink_min a_len b_len) P) with (order := order) (buf1 := buf1) (buf2 := buf2) (buf3 := buf3) (r := repeat int32_max (length a_len))
    as (r & vs & E & HP & Hr & Hall); try assumption.
  - intros vs r k i j Hk Hi Hj [HL HP]. unfold sink_min.
    destruct (load_some _ a_len k ltac:(lia)) as (la & Ela). destruct (load_some _ b_len k ltac:(lia)) as (lb & Elb). rewrite Ela, Elb. cbn [obind]. unfold load in *.
    destruct (Nat.eqb_spec i la) as [->|Ni]; [destruct (Nat.leb_spec j lb) as [Hj2|Nj]|]; cbn [andb].
    + destruct (HP k la lb Ela Elb) as (z & Ez & H1 & H2). rewrite Ez. cbn [obind].
      destruct (store_ok _ r k (Z.min z (Z.of_nat (tab na nb a b k la j))) ltac:(lia)) as (r' & Es & L' & N'). exists r'. split; [exact Es|]. split; [lia|].
      intros k' la' lb' E1 E2. rewrite N'. destruct (Nat.eqb_spec k' k) as [->|Q].
      * rewrite Ela in E1. rewrite Elb in E2. injection E1 as <-. injection E2 as <-. eexists. split; [reflexivity|]. split.
        -- intros j' Hj' [H|H]; [injection H as <-; lia|]. specialize (H1 j' Hj' H). lia.
        -- destruct (Z.min_spec z (Z.of_nat (tab na nb a b k la j))) as [[_ ->]|[_ ->]].
           ++ destruct H2 as [H2|(j' & G1 & G2 & G3)]; [left; exact H2|right; exists j'; repeat split; [exact G1|right; exact G2|exact G3]].
           ++ right. exists j. repeat split; [exact Hj2|left; reflexivity].
      * destruct (HP k' la' lb' E1 E2) as (z' & Ez' & H1' & H2'). exists z'. split; [exact Ez'|]. split.
        -- intros j' Hj' [H|H]; [injection H as H _ _; congruence|]. exact (H1' j' Hj' H).
        -- destruct H2' as [H2'|(j' & G1 & G2 & G3)]; [left; exact H2'|right; exists j'; repeat split; [exact G1|right; exact G2|exact G3]].
    + exists r. split; [reflexivity|]. split; [exact HL|]. intros k' la' lb' E1 E2. destruct (HP k' la' lb' E1 E2) as (z' & Ez' & H1' & H2'). exists z'. split; [exact Ez'|]. split.
      * intros j' Hj' [H|H]; [injection H as -> -> ->; assert (lb' = lb) by congruence; lia|]. exact (H1' j' Hj' H).
      * destruct H2' as [H2'|(j' & G1 & G2 & G3)]; [left; exact H2'|right; exists j'; repeat split; [exact G1|right; exact G2|exact G3]].
    + exists r. split; [reflexivity|]. split; [exact HL|]. intros k' la' lb' E1 E2. destruct (HP k' la' lb' E1 E2) as (z' & Ez' & H1' & H2'). exists z'. split; [exact Ez'|]. split.
      * intros j' Hj' [H|H]; [injection H as -> -> ->; congruence|]. exact (H1' j' Hj' H).
      * destruct H2' as [H2'|(j' & G1 & G2 & G3)]; [left; exact H2'|right; exists j'; repeat split; [exact G1|right; exact G2|exact G3]].
  - split; [rewrite repeat_length; exact Lal|]. intros k la lb E1 E2. exists int32_max. split; [|split; [contradiction|left; reflexivity]].
    assert (k < length a_len) by (apply nth_error_Some; congruence). apply nth_error_repeat. exact H.
  - exists r. split; [exact E|]. destruct HP as [HL HP]. split; [exact HL|]. intros k la lb E1 E2. destruct (HP k la lb E1 E2) as (z & Ez & H1 & H2).
    assert (Hk : k < n) by (rewrite <- Lal; apply nth_error_Some; congruence).
    assert (Hlb : lb <= nb) by (rewrite Forall_forall in Hbl; apply Hbl; eapply nth_error_In; exact E2). split; intros Hla.
    + destruct H2 as [->|(j & G1 & G2 & _)]; [exact Ez|]. rewrite Forall_forall in Hr. apply Hr in G2. cbn in G2. lia.
    + assert (G : exists j, j <= lb /\ z = Z.of_nat (tab na nb a b k la j)).
      { destruct H2 as [->|(j & G1 & _ & G3)]; [|exists j; auto]. specialize (H1 0 ltac:(lia)). rewrite (tab_0_r na nb n a b La) in H1 by assumption.
        assert (In (k, la, 0) vs) by (apply Hall; cbn; lia). specialize (H1 H). lia. }
      destruct G as (j & Hj & ->). eexists. split; [exact Ez|].
      assert (Lsb : length (seq_of nb b k lb) = lb) by (eapply seq_of_len; eassumption).
      apply optimal_completion_prefix.
      * exists j. rewrite Lsb, seq_of_firstn by assumption. split; [exact Hj|reflexivity].
      * intros t Ht. rewrite Lsb in Ht. rewrite seq_of_firstn by assumption. specialize (H1 t Ht (Hall (k, la, t) ltac:(cbn; lia))). apply Nat2Z.inj_le. exact H1.
Qed.

Lemma row_ok : forall na nb n a b a_len b_len order buf1 buf2 buf3 row,
  length a = n * na -> length b = n * nb -> length a_len = n -> length b_len = n -> schedule na nb n order ->
  length buf1 = n * max_num_entries na nb -> length buf2 = n * max_num_entries na nb -> length buf3 = n * max_num_entries na nb ->
  length row = n * (nb + 1) -> Forall (fun l => l <= na) a_len ->
  exists r, run_diagonals (sink_row nb a_len b_len) na nb a b order buf1 buf2 buf3 row = Some r /\ length r = n * (nb + 1) /\
    forall k la lb j, nth_error a_len k = Some la -> nth_error b_len k = Some lb -> j <= lb -> j <= nb ->
      nth_error r (k * (nb + 1) + j) = Some (Z.of_nat (tab na nb a b k la j)).
Proof.
  intros na nb n a b a_len b_len order buf1 buf2 buf3 row La Lb Lal Lbl Ho L1 L2 L3 Lr Hal.
  set (P := fun (vs : list (nat * nat * nat)) (r : list Z) => length r = n * (nb + 1) /\ forall k la lb j, nth_error a_len k = Some la -> nth_error b_len k = Some lb ->
    j <= lb -> j <= nb -> In (k, la, j) vs -> nth_error r (k * (nb + 1) + j) = Some (Z.of_nat (tab na nb a b k la j))).
  destruct (run_ok na nb n a b La Lb (sink_row nb a_len b_len) P) with (order := order) (buf1 := buf1) (buf2 := buf2) (buf3 := buf3) (r := row)
    as (r & vs & E & HP & Hr & Hall); try assumption.
  - intros vs r k i j Hk Hi Hj [HL HP]. unfold sink_row.
    destruct (load_some _ a_len k ltac:(lia)) as (la & Ela). destruct (load_some _ b_len k ltac:(lia)) as (lb & Elb). rewrite Ela, Elb. cbn [obind]. unfold load in *.
    destruct (Nat.eqb_spec i la) as [->|Ni]; [destruct (Nat.leb_spec j lb) as [Hj2|Nj]|]; cbn [andb].
    + destruct (store_ok _ r (k * (nb + 1) + j) (Z.of_nat (tab na nb a b k la j))) as (r' & Es & L' & N').
      { apply (Nat.mul_le_mono_r (S k) n (nb + 1)) in Hk. lia. }
      exists r'. split; [exact Es|]. split; [lia|]. intros k' la' lb' j' E1 E2 B1 B2 H. rewrite N'.
      destruct (Nat.eqb_spec (k' * (nb + 1) + j') (k * (nb + 1) + j)) as [Q|Q].
      * assert (k' = k) by nia. assert (j' = j) by nia. subst k' j'. rewrite Ela in E1. injection E1 as <-. reflexivity.
      * destruct H as [H|H]; [injection H as <- <- <-; congruence|]. exact (HP k' la' lb' j' E1 E2 B1 B2 H).
    + exists r. split; [reflexivity|]. split; [exact HL|]. intros k' la' lb' j' E1 E2 B1 B2 [H|H]; [injection H as -> -> ->; assert (lb' = lb) by congruence; lia|].
      exact (HP k' la' lb' j' E1 E2 B1 B2 H).
    + exists r. split; [reflexivity|]. split; [exact HL|]. intros k' la' lb' j' E1 E2 B1 B2 [H|H]; [injection H as -> -> ->; congruence|].
      exact (HP k' la' lb' j' E1 E2 B1 B2 H).
  - split; [exact Lr|]. contradiction.
  - exists r. split; [exact E|]. destruct HP as [HL HP]. split; [exact HL|]. intros k la lb j E1 E2 B1 B2. apply (HP k la lb j E1 E2 B1 B2). apply Hall. cbn.
    rewrite Forall_forall in Hal. split; [rewrite <- Lal; apply nth_error_Some; congruence|]. split; [apply Hal; eapply nth_error_In; exact E1|exact B2].
Qed.

Lemma nth_error_snoc : forall A (l : list A) t y, nth_error l t = Some y -> firstn (S t) l = firstn t l ++ [y].
Proof.
  intros A l. induction l as [|x l IH]; intros [|t] y H; try discriminate; [injection H as ->; reflexivity|]. cbn [nth_error] in H. cbn [firstn app]. f_equal. exact (IH t y H).
Qed.
(** The distances for one more symbol *)
Lemma successor_min : forall (a b : list Z) x m,
  m <= length a + 1 -> m <= dst a b + 1 ->
  (forall t y, nth_error b t = Some y -> m <= dst a (firstn t b) + (if (x =? y)%Z then 0 else 1)) ->
  (m = length a + 1 \/ m = dst a b + 1 \/ exists t y, nth_error b t = Some y /\ m = dst a (firstn t b) + (if (x =? y)%Z then 0 else 1)) ->
  is_optimal_completion (a ++ [x]) b m.
Proof.
  intros a b x m H1 H2 H3 H4.
  assert (LB : forall t, t <= length b -> m <= dst (a ++ [x]) (firstn t b)).
  { intros t. induction t as [|t IH]; intros Ht.
    - cbn [firstn]. rewrite dst_nil_r, app_length. exact H1.
    - destruct (nth_error b t) as [y|] eqn:E; [|apply nth_error_None in E; lia]. rewrite (nth_error_snoc _ _ _ _ E), dst_snoc.
      pose proof (H3 t y E) as G1. specialize (IH ltac:(lia)).
      assert (G2 : m <= dst a (firstn (S t) b) + 1).
      { destruct (nth_error b (S t)) as [y'|] eqn:E'; [specialize (H3 (S t) y' E'); destruct (x =? y')%Z; lia|].
        apply nth_error_None in E'. rewrite firstn_all2 by exact E'. exact H2. }
      rewrite (nth_error_snoc _ _ _ _ E) in G2. lia. }
  apply optimal_completion_prefix; [|exact LB].
  assert (G : exists t, t <= length b /\ dst (a ++ [x]) (firstn t b) <= m).
  { destruct H4 as [->|[->|(t & y & E & ->)]].
    - exists 0. split; [lia|]. cbn [firstn]. rewrite dst_nil_r, app_length. cbn [length]. lia.
    - exists (length b). split; [lia|]. rewrite firstn_all. destruct b as [|y b] using rev_ind; [rewrite !dst_nil_r, app_length; cbn; lia|]. rewrite dst_snoc. lia.
    - exists (S t). split; [apply nth_error_Some; congruence|]. rewrite (nth_error_snoc _ _ _ _ E), dst_snoc. lia. }
  destruct G as (t & Ht & G). exists t. split; [exact Ht|]. specialize (LB t Ht). lia.
Qed.
Lemma each_inv : forall S (f : S -> nat -> option S) (P : list nat -> S -> Prop) N,
  (forall vs s i, i < N -> P vs s -> exists s', f s i = Some s' /\ P (i :: vs) s') ->
  forall order s vs, P vs s -> (forall i, In i order -> i < N) -> Forall (fun i => i < N) vs ->
  exists s' vs', each f s order = Some s' /\ P vs' s' /\ (forall i, In i order \/ In i vs -> In i vs') /\ Forall (fun i => i < N) vs'.
Proof.
  intros S f P N Hf order. induction order as [|i order IH]; intros s vs HP Ho Hv.
  - exists s, vs. cbn [each]. split; [reflexivity|]. split; [exact HP|]. split; [intros i [[]|H]; exact H|exact Hv].
  - cbn [each]. destruct (Hf vs s i (Ho i (or_introl eq_refl)) HP) as (s1 & E & HP1). rewrite E. cbn [obind].
    destruct (IH s1 (i :: vs) HP1 (fun j Hj => Ho j (or_intror Hj))) as (s' & vs' & E' & HP' & Hi & Hv'); [constructor; [apply Ho; left; reflexivity|exact Hv]|].
    exists s', vs'. split; [exact E'|]. split; [exact HP'|]. split; [|exact Hv']. intros j [[H|H]|H]; apply Hi; [right; left; exact H|left; exact H|right; right; exact H].
Qed.

Theorem per_successor_op_ok : forall na nb n a b a_len b_len successors order oi oe buf1 buf2 buf3 row,
  length a = n * na -> length b = n * nb -> length a_len = n -> length b_len = n -> schedule na nb n order ->
  any_order (n * length successors) oi -> any_order (n * length successors * nb) oe ->
  length buf1 = n * max_num_entries na nb -> length buf2 = n * max_num_entries na nb -> length buf3 = n * max_num_entries na nb ->
  length row = n * (nb + 1) -> Forall (fun l => l <= na) a_len -> Forall (fun l => l <= nb) b_len ->
  exists r, per_successor_op na nb a a_len b b_len successors order oi oe buf1 buf2 buf3 row = Some r /\ length r = n * length successors /\
    forall k la lb j x, nth_error a_len k = Some la -> nth_error b_len k = Some lb -> nth_error successors j = Some x ->
      exists d, nth_error r (k * length successors + j) = Some (Z.of_nat d) /\
        is_optimal_completion (seq_of na a k la ++ [x]) (seq_of nb b k lb) d.
Proof.
  intros na nb n a b a_len b_len successors order oi oe buf1 buf2 buf3 row La Lb Lal Lbl Ho Hoi Hoe L1 L2 L3 Lr Hal Hbl. unfold per_successor_op.
  destruct (row_ok na nb n a b a_len b_len order buf1 buf2 buf3 row) as (row' & -> & Lr' & HR); try assumption. cbn [obind].
  set (nl := length successors) in *.
  pose (ini := fun k la lb => Nat.min (la + 1) (tab na nb a b k la lb + 1)).
  set (P1 := fun (vs : list nat) (r : list Z) => length r = n * nl /\ forall k la lb j, nth_error a_len k = Some la -> nth_error b_len k = Some lb -> j < nl ->
     In (k * nl + j) vs -> nth_error r (k * nl + j) = Some (Z.of_nat (ini k la lb))).
  destruct (each_inv _ (init_result_kernel nb nl a_len b_len row') P1 (n * nl)) with (order := oi) (s := repeat (-1)%Z (length a_len * nl)) (vs := @nil nat)
    as (r1 & vs1 & E1 & HP1 & Hi1 & Hv1).
  - intros vs r i Hi [HL HP]. unfold init_result_kernel. assert (nl <> 0) by nia. assert (Hk : i / nl < n) by (apply Nat.div_lt_upper_bound; lia).
    pose proof (Nat.div_mod i nl ltac:(lia)) as DM. pose proof (Nat.mod_upper_bound i nl ltac:(lia)) as Hm. set (k := i / nl) in *. set (j := i mod nl) in *.
    destruct (load_some _ a_len k ltac:(lia)) as (la & Ela). destruct (load_some _ b_len k ltac:(lia)) as (lb & Elb). rewrite Ela, Elb. cbn [obind]. unfold load in *.
    assert (Hlb : lb <= nb) by (rewrite Forall_forall in Hbl; apply Hbl; eapply nth_error_In; exact Elb).
    rewrite (HR k la lb lb Ela Elb ltac:(lia) Hlb). cbn [obind].
    destruct (store_ok _ r (k * nl + j) (Z.min (Z.of_nat (la + 1)) (Z.of_nat (tab na nb a b k la lb) + 1))) as (r' & Es & L' & N'); [lia|].
    exists r'. split; [exact Es|]. split; [lia|]. intros k' la' lb' j' F1 F2 Hj' Hin. rewrite N'. destruct (Nat.eqb_spec (k' * nl + j') (k * nl + j)) as [Q|Q].
    + assert (k' = k) by nia. assert (j' = j) by nia. subst k' j'. rewrite Ela in F1. rewrite Elb in F2. injection F1 as <-. injection F2 as <-. unfold ini. f_equal. lia.
    + destruct Hin as [Hin|Hin]; [exfalso; apply Q; lia|]. exact (HP k' la' lb' j' F1 F2 Hj' Hin).
  - split; [rewrite repeat_length, Lal; reflexivity|]. contradiction.
  - intros i Hi. apply Hoi. exact Hi.
  - constructor.
  - rewrite E1. cbn [obind]. destruct HP1 as [HL1 HP1].
    assert (HI : forall k la lb j, nth_error a_len k = Some la -> nth_error b_len k = Some lb -> j < nl -> nth_error r1 (k * nl + j) = Some (Z.of_nat (ini k la lb))).
    { intros k la lb j F1 F2 Hj. apply HP1; try assumption. apply Hi1. left. apply Hoi. assert (k < n) by (rewrite <- Lal; apply nth_error_Some; congruence). nia. }
    set (cand := fun k la j t => match nth_error successors j, nth_error b (k * nb + t) with
       | Some x, Some y => tab na nb a b k la t + (if (x =? y)%Z then 0 else 1) | _, _ => 0 end).
    set (P2 := fun (vs : list nat) (r : list Z) => length r = n * nl /\ forall k la lb j, nth_error a_len k = Some la -> nth_error b_len k = Some lb -> j < nl ->
       exists z, nth_error r (k * nl + j) = Some (Z.of_nat z) /\ z <= ini k la lb /\
         (forall t, t < lb -> In ((k * nl + j) * nb + t) vs -> z <= cand k la j t) /\
         (z = ini k la lb \/ exists t, t < lb /\ z = cand k la j t)).
    destruct (each_inv _ (expand_kernel nb nl b b_len row' successors) P2 (n * nl * nb)) with (order := oe) (s := r1) (vs := @nil nat)
      as (r2 & vs2 & E2 & HP2 & Hi2 & Hv2).
    + intros vs r i Hi [HL HP]. unfold expand_kernel. assert (nb <> 0) by nia. assert (nl <> 0) by nia.
      assert (Hq : i / nb < n * nl) by (apply Nat.div_lt_upper_bound; lia). assert (Hk : i / nb / nl < n) by (apply Nat.div_lt_upper_bound; lia).
      pose proof (Nat.div_mod i nb ltac:(lia)) as DM. pose proof (Nat.mod_upper_bound i nb ltac:(lia)) as Hm.
      pose proof (Nat.div_mod (i / nb) nl ltac:(lia)) as DM2. pose proof (Nat.mod_upper_bound (i / nb) nl ltac:(lia)) as Hm2.
      set (k := i / nb / nl) in *. set (j := (i / nb) mod nl) in *. set (t := i mod nb) in *. set (q := i / nb) in *.
      destruct (load_some _ successors j ltac:(unfold nl in Hm2; lia)) as (x & Ex). destruct (load_some _ b_len k ltac:(lia)) as (lb & Elb).
      destruct (load_some _ a_len k ltac:(lia)) as (la & Ela). rewrite Ex, Elb. cbn [obind]. unfold load in *.
      destruct (Nat.ltb_spec t lb) as [Ht|Ht].
      * destruct (HP k la lb j Ela Elb Hm2) as (z & Ez & Z1 & Z2 & Z3).
        rewrite (HR k la lb t Ela Elb ltac:(lia) ltac:(lia)). cbn [obind].
        destruct (load_some _ b (k * nb + t)) as (y & Ey); [rewrite Lb; apply (Nat.mul_le_mono_r (S k) n nb) in Hk; lia|]. unfold load in Ey. rewrite Ey. cbn [obind]. rewrite Ez. cbn [obind].
        assert (Ec : cand k la j t = tab na nb a b k la t + (if (x =? y)%Z then 0 else 1)) by (unfold cand; rewrite Ex, Ey; reflexivity).
        replace (Z.min (Z.of_nat z) (if (x =? y)%Z then Z.of_nat (tab na nb a b k la t) else (Z.of_nat (tab na nb a b k la t) + 1)%Z))
          with (Z.of_nat (Nat.min z (cand k la j t))) by (rewrite Ec; destruct (x =? y)%Z; lia).
        destruct (store_ok _ r (k * nl + j) (Z.of_nat (Nat.min z (cand k la j t)))) as (r' & Es & L' & N'); [lia|].
        exists r'. split; [exact Es|]. split; [lia|]. intros k' la' lb' j' F1 F2 Hj'. rewrite N'. destruct (Nat.eqb_spec (k' * nl + j') (k * nl + j)) as [Q|Q].
        -- assert (k' = k) by nia. assert (j' = j) by nia. subst k' j'. rewrite Ela in F1. rewrite Elb in F2. injection F1 as <-. injection F2 as <-.
           exists (Nat.min z (cand k la j t)). split; [reflexivity|]. split; [lia|]. split.
           ++ intros t' Ht' [Hin|Hin]; [assert (t' = t) by nia; subst t'; lia|]. specialize (Z2 t' Ht' Hin). lia.
           ++ destruct (Nat.min_spec z (cand k la j t)) as [[_ ->]|[_ ->]]; [exact Z3|]. right. exists t. split; [exact Ht|reflexivity].
        -- destruct (HP k' la' lb' j' F1 F2 Hj') as (z' & Ez' & Z1' & Z2' & Z3'). exists z'. split; [exact Ez'|]. split; [exact Z1'|]. split; [|exact Z3'].
           intros t' Ht' [Hin|Hin]; [|exact (Z2' t' Ht' Hin)]. exfalso. apply Q.
           assert (lb' <= nb) by (rewrite Forall_forall in Hbl; apply Hbl; eapply nth_error_In; exact F2). set (q1 := k' * nl + j') in *. assert (q1 = q) by nia. lia.
      * exists r. split; [reflexivity|]. split; [exact HL|]. intros k' la' lb' j' F1 F2 Hj'.
        destruct (HP k' la' lb' j' F1 F2 Hj') as (z' & Ez' & Z1' & Z2' & Z3'). exists z'. split; [exact Ez'|]. split; [exact Z1'|]. split; [|exact Z3'].
        intros t' Ht' [Hin|Hin]; [|exact (Z2' t' Ht' Hin)]. exfalso.
        assert (lb' <= nb) by (rewrite Forall_forall in Hbl; apply Hbl; eapply nth_error_In; exact F2).
        assert (k' * nl + j' = q) by (set (q1 := k' * nl + j') in *; nia). assert (k' = k) by nia. assert (t' = t) by nia. subst k' t'. assert (lb' = lb) by congruence. lia.
    + split; [exact HL1|]. intros k la lb j F1 F2 Hj. exists (ini k la lb). split; [apply HI; assumption|]. split; [lia|]. split; [contradiction|left; reflexivity].
    + intros i Hi. apply Hoe. exact Hi.
    + constructor.
    + exists r2. split; [exact E2|]. destruct HP2 as [HL2 HP2]. split; [exact HL2|]. intros k la lb j x F1 F2 Fx.
      assert (Hj : j < nl) by (unfold nl; apply nth_error_Some; congruence).
      assert (Hk : k < n) by (rewrite <- Lal; apply nth_error_Some; congruence).
      assert (Hla : la <= na) by (rewrite Forall_forall in Hal; apply Hal; eapply nth_error_In; exact F1).
      assert (Hlb : lb <= nb) by (rewrite Forall_forall in Hbl; apply Hbl; eapply nth_error_In; exact F2).
      destruct (HP2 k la lb j F1 F2 Hj) as (z & Ez & Z1 & Z2 & Z3). exists z. split; [exact Ez|].
      assert (Lsa : length (seq_of na a k la) = la) by (eapply seq_of_len; eassumption).
      assert (Lsb : length (seq_of nb b k lb) = lb) by (eapply seq_of_len; eassumption).
      assert (CN : forall t, t < lb -> exists y, nth_error (seq_of nb b k lb) t = Some y /\ cand k la j t = dst (seq_of na a k la) (firstn t (seq_of nb b k lb)) + (if (x =? y)%Z then 0 else 1)).
      { intros t Ht. destruct (seq_of_S nb b n k t Lb Hk ltac:(lia)) as (y & Ey & Sy). exists y. split.
        - assert (G : nth_error (seq_of nb b k (S t)) t = Some y) by (rewrite Sy, nth_error_app2 by (erewrite seq_of_len; [apply Nat.le_refl|eassumption|exact Hk|lia]); erewrite seq_of_len by (eassumption || lia); rewrite Nat.sub_diag; reflexivity).
          rewrite <- (seq_of_firstn nb b k lb (S t)) in G by lia. rewrite nth_error_firstn' in G. replace (t <? S t) with true in G by (symmetry; apply Nat.ltb_lt; lia). exact G.
        - unfold cand. rewrite Fx, Ey. rewrite seq_of_firstn by lia. reflexivity. }
      unfold ini in *. apply successor_min.
      * rewrite Lsa. lia.
      * change (dst (seq_of na a k la) (seq_of nb b k lb)) with (tab na nb a b k la lb). lia.
      * intros t y Ey. assert (Ht : t < lb) by (rewrite <- Lsb; apply nth_error_Some; congruence). destruct (CN t Ht) as (y' & Ey' & C). rewrite Ey in Ey'. injection Ey' as <-.
        rewrite <- C. apply Z2; [exact Ht|]. apply Hi2. left. apply Hoe. nia.
      * rewrite Lsa. change (dst (seq_of na a k la) (seq_of nb b k lb)) with (tab na nb a b k la lb). destruct Z3 as [->|(t & Ht & ->)].
        -- destruct (Nat.min_spec (la + 1) (tab na nb a b k la lb + 1)) as [[_ ->]|[_ ->]]; auto.
        -- right. right. destruct (CN t Ht) as (y & Ey & C). exists t, y. auto.
Qed.

(** ** Row by row *)
Definition drow (A B : list Z) (t n : nat) : list Z := map (fun u => Z.of_nat (dst A (firstn u B))) (seq t n).
Lemma drow_nth : forall A B w t, t < w -> nth_error (drow A B 0 w) t = Some (Z.of_nat (dst A (firstn t B))).
Proof. intros. unfold drow. rewrite nth_error_map, nth_error_seq by lia. reflexivity. Qed.
Lemma drow_length : forall A B t n, length (drow A B t n) = n.
Proof. intros. unfold drow. rewrite map_length, seq_length. reflexivity. Qed.
Lemma drow_is_row : forall A B w, is_row A B (drow A B 0 (w + 1)) w.
Proof. intros. split; [apply drow_length|]. intros t Ht. eexists. split; [apply drow_nth; lia|apply dst_is]. Qed.
Lemma is_row_drow : forall A B row w, is_row A B row w -> row = drow A B 0 (w + 1).
Proof.
  intros A B row w [L H]. apply nth_error_ext. intros t. destruct (Nat.lt_ge_cases t (w + 1)) as [Q|Q].
  - rewrite drow_nth by exact Q. destruct (H t ltac:(lia)) as (d & E & D). apply dst_unique in D. congruence.
  - transitivity (@None Z); [apply nth_error_None; lia|symmetry; apply nth_error_None; rewrite drow_length; lia].
Qed.
Lemma is_row_has : forall A B row w, length B <= w -> is_row A B row w -> has_row A B row.
Proof. intros A B row w HB [_ H] t Ht. apply H. lia. Qed.
Lemma drow_last : forall A B t n, last (drow A B t (S n)) 0%Z = Z.of_nat (dst A (firstn (t + n) B)).
Proof.
  intros A B t n. unfold drow. rewrite seq_S, map_app. cbn [map]. rewrite last_last. reflexivity.
Qed.
Lemma drow_pad : forall A B w, length B <= w -> drow A B 0 (length B + 1) ++ repeat (last (drow A B 0 (length B + 1)) 0%Z) (w - length B) = drow A B 0 (w + 1).
Proof.
  intros A B w H. replace (length B + 1) with (S (length B)) by lia. rewrite drow_last. replace (w + 1) with (S (length B) + (w - length B)) by lia.
  unfold drow. rewrite seq_app, map_app. f_equal. apply nth_error_ext. intros i. rewrite nth_error_map. destruct (Nat.lt_ge_cases i (w - length B)) as [Q|Q].
  - rewrite nth_error_repeat, nth_error_seq by exact Q. cbn [option_map]. rewrite !firstn_all2 by lia. reflexivity.
  - transitivity (@None Z); [apply nth_error_None; rewrite repeat_length; exact Q|].
    replace (nth_error (seq (0 + S (length B)) (w - length B)) i) with (@None nat); [reflexivity|]. symmetry. apply nth_error_None. rewrite seq_length. exact Q.
Qed.

Section Rows.
Variables (nb n : nat) (b last_row : list Z).
Hypothesis (Lb : length b = n * nb).
Variables (k lb : nat) (A : list Z).
Hypothesis (Hk : k < n) (Hlb : lb <= nb).
Notation B := (seq_of nb b k lb).
Hypothesis HR : has_row A B (seq_of (nb + 1) last_row k (nb + 1)).

Lemma LB : length B = lb.
Proof. eapply seq_of_len; eassumption. Qed.
Lemma nth_error_skipn' : forall T (l : list T) m i, nth_error (skipn m l) i = nth_error l (m + i).
Proof. intros T l m. revert l. induction m as [|m IH]; intros l i; [reflexivity|]. destruct l as [|x l]; [cbn [skipn]; destruct i; reflexivity|]. cbn [skipn Nat.add nth_error]. apply IH. Qed.
Lemma good : forall t, t <= lb -> nth_error last_row (k * (nb + 1) + t) = Some (Z.of_nat (dst A (firstn t B))).
Proof.
  intros t Ht. destruct (HR t) as (d & E & D); [rewrite LB; exact Ht|]. apply dst_unique in D. subst d. rewrite <- E. unfold seq_of. rewrite nth_error_firstn'.
  replace (t <? nb + 1) with true by (symmetry; apply Nat.ltb_lt; lia). rewrite nth_error_skipn'. reflexivity.
Qed.
Lemma B_S : forall t, t < lb -> exists y, nth_error b (k * nb + t) = Some y /\ firstn (S t) B = firstn t B ++ [y].
Proof.
  intros t Ht. destruct (seq_of_S nb b n k t Lb Hk ltac:(lia)) as (y & Ey & Sy). exists y. split; [exact Ey|]. rewrite !seq_of_firstn by lia. exact Sy.
Qed.
Lemma row_loop_ok : forall x m t, t + m = lb + 1 -> 1 <= t ->
  row_loop nb k last_row b x m t (Z.of_nat (dst (A ++ [x]) (firstn (t - 1) B))) = Some (drow (A ++ [x]) B t m).
Proof.
  intros x m. induction m as [|m IH]; intros t Ht H1; [reflexivity|]. cbn [row_loop]. unfold load.
  rewrite (good t) by lia. replace (k * (nb + 1) + t - 1) with (k * (nb + 1) + (t - 1)) by lia. rewrite (good (t - 1)) by lia.
  destruct (B_S (t - 1) ltac:(lia)) as (y & Ey & Sy). replace (k * nb + t - 1) with (k * nb + (t - 1)) by lia. rewrite Ey. cbn [obind].
  replace (S (t - 1)) with t in Sy by lia.
  match goal with |- obind (row_loop _ _ _ _ _ _ _ ?e) _ = _ => assert (Q : e = Z.of_nat (dst (A ++ [x]) (firstn t B))) end.
  { rewrite Sy, dst_snoc, <- Sy. destruct (x =? y)%Z; lia. }
  rewrite Q. replace (firstn t B) with (firstn (t + 1 - 1) B) at 1 by (f_equal; lia). rewrite IH by lia. cbn [obind]. unfold drow. cbn [seq map]. rewrite Nat.add_1_r. reflexivity.
Qed.
Lemma copy_loop_ok : forall m t, t + m = lb + 1 -> copy_loop nb k last_row m t = Some (drow A B t m).
Proof.
  intros m. induction m as [|m IH]; intros t Ht; [reflexivity|]. cbn [copy_loop]. unfold load. rewrite (good t) by lia. cbn [obind]. rewrite IH by lia. cbn [obind].
  unfold drow. cbn [seq map]. rewrite Nat.add_1_r. reflexivity.
Qed.
Lemma extend_ok : forall x, (let? r := row_loop nb k last_row b x lb 1 (Z.of_nat (length A + 1)) in Some (Z.of_nat (length A + 1) :: r)) = Some (drow (A ++ [x]) B 0 (lb + 1)).
Proof.
  intros x. assert (Q : Z.of_nat (length A + 1) = Z.of_nat (dst (A ++ [x]) (firstn (1 - 1) B))).
  { cbn [Nat.sub firstn]. rewrite dst_nil_r, app_length. reflexivity. }
  rewrite Q, row_loop_ok by lia. cbn [obind]. unfold drow. rewrite (Nat.add_1_r lb). cbn [seq map]. reflexivity.
Qed.
Lemma next_row_kernel_ok : forall a a_n a_ended b_len x, nth_error a k = Some x -> nth_error b_len k = Some lb ->
  forall ended, (ended = false -> nth_error a_n k = Some (length A)) -> nth_error a_ended k = Some ended ->
  next_row_kernel nb last_row a a_n a_ended b b_len k = Some (drow (if ended then A else A ++ [x]) B 0 (nb + 1)).
Proof.
  intros a a_n a_ended b_len x Ex Elb ended En Ee. unfold next_row_kernel, load. rewrite Ee, Elb. cbn [obind].
  pose proof LB as HLB. replace (lb <=? nb) with true by (symmetry; apply Nat.leb_le; exact Hlb).
  destruct ended; cbn [negb].
  - rewrite copy_loop_ok by lia. cbn [obind]. f_equal. pose proof (drow_pad A B nb) as DP. rewrite HLB in DP. apply DP. exact Hlb.
  - rewrite (En eq_refl), Ex. cbn [obind]. rewrite extend_ok. cbn [obind]. f_equal. pose proof (drow_pad (A ++ [x]) B nb) as DP. rewrite HLB in DP. apply DP. exact Hlb.
Qed.
End Rows.

Lemma rows_ok : forall T (f : nat -> option (list T)) g n k, (forall i, k <= i < k + n -> f i = Some (g i)) -> rows f n k = Some (concat (map g (seq k n))).
Proof.
  intros T f g n. induction n as [|n IH]; intros k H; [reflexivity|]. cbn [rows seq map concat]. rewrite (H k) by lia. cbn [obind]. rewrite (IH (k + 1)) by (intros; apply H; lia).
  cbn [obind]. rewrite Nat.add_1_r. reflexivity.
Qed.
Lemma concat_rows : forall T (g : nat -> list T) w n k i, (forall j, length (g j) = w) -> i < n ->
  firstn w (skipn (i * w) (concat (map g (seq k n)))) = g (k + i).
Proof.
  intros T g w n. induction n as [|n IH]; intros k i Hw Hi; [lia|]. cbn [seq map concat]. destruct i as [|i].
  - cbn [Nat.mul skipn]. rewrite firstn_app, Hw, Nat.sub_diag. cbn [firstn]. rewrite app_nil_r, Nat.add_0_r. apply firstn_all2. rewrite Hw. lia.
  - rewrite skipn_app, Hw. replace (S i * w - w) with (i * w) by lia. rewrite (skipn_all2 (g k)) by (rewrite Hw; lia). cbn [app]. rewrite IH by (assumption || lia). f_equal. lia.
Qed.
Lemma concat_rows_len : forall T (g : nat -> list T) w n k, (forall j, length (g j) = w) -> length (concat (map g (seq k n))) = n * w.
Proof. intros T g w n. induction n as [|n IH]; intros k Hw; [reflexivity|]. cbn [seq map concat]. rewrite app_length, Hw, IH by exact Hw. lia. Qed.

Theorem next_row_op_ok : forall nb n last_row a a_n a_ended b b_len (A : nat -> list Z),
  length b = n * nb -> length b_len = n -> length a = n -> length a_ended = n -> Forall (fun l => l <= nb) b_len ->
  (forall k lb, nth_error b_len k = Some lb -> (nth_error a_ended k = Some false -> nth_error a_n k = Some (length (A k))) /\ has_row (A k) (seq_of nb b k lb) (seq_of (nb + 1) last_row k (nb + 1))) ->
  exists r, next_row_op nb last_row a a_n a_ended b b_len = Some r /\ length r = n * (nb + 1) /\
    forall k lb x ended, nth_error b_len k = Some lb -> nth_error a k = Some x -> nth_error a_ended k = Some ended ->
      is_row (if ended then A k else A k ++ [x]) (seq_of nb b k lb) (seq_of (nb + 1) r k (nb + 1)) nb.
Proof.
  intros nb n last_row a a_n a_ended b b_len A Lb Lbl La Le Hbl H. unfold next_row_op.
  set (g := fun k => drow (if nth k a_ended false then A k else A k ++ [nth k a 0%Z]) (seq_of nb b k (nth k b_len 0)) 0 (nb + 1)).
  assert (Hg : forall k, length (g k) = nb + 1) by (intros; unfold g; apply drow_length).
  rewrite Lbl, (rows_ok _ _ g).
  - eexists. split; [reflexivity|]. split; [apply concat_rows_len; exact Hg|]. intros k lb x ended Elb Ex Ee.
    assert (Hk : k < n) by (rewrite <- Lbl; apply nth_error_Some; congruence).
    unfold seq_of at 2. rewrite concat_rows by assumption. cbn [Nat.add]. unfold g.
    rewrite (nth_error_nth _ _ _ Elb), (nth_error_nth _ _ _ Ex), (nth_error_nth _ _ _ Ee). apply drow_is_row.
  - intros k Hk. destruct (load_some _ b_len k ltac:(lia)) as (lb & Elb). destruct (load_some _ a k ltac:(lia)) as (x & Ex). destruct (load_some _ a_ended k ltac:(lia)) as (e & Ee).
    unfold load in *. destruct (H k lb Elb) as [En HR].
    assert (Hlb : lb <= nb) by (rewrite Forall_forall in Hbl; apply Hbl; eapply nth_error_In; exact Elb).
    unfold g. rewrite (nth_error_nth _ _ _ Elb), (nth_error_nth _ _ _ Ex), (nth_error_nth _ _ _ Ee).
    eapply next_row_kernel_ok; try eassumption; [lia|intros ->; exact (En Ee)].
Qed.

(** ** Reductions of a row *)
Lemma fold_min_le : forall l z, (fold_left Z.min l z <= z)%Z /\ (forall y, In y l -> (fold_left Z.min l z <= y)%Z) /\ (fold_left Z.min l z = z \/ In (fold_left Z.min l z) l).
Proof.
  induction l as [|x l IH]; intros z; [cbn; repeat split; [lia|contradiction|auto]|]. cbn [fold_left]. destruct (IH (Z.min z x)) as (H1 & H2 & H3).
  split; [lia|]. split; [intros y [<-|H]; [lia|exact (H2 y H)]|]. destruct H3 as [H3|H3]; [|right; right; exact H3].
  rewrite H3. destruct (Z.min_spec z x) as [[_ ->]|[_ ->]]; [left; reflexivity|right; left; reflexivity].
Qed.
Lemma drow_min : forall A B w z, length B <= w -> hd_error (drow A B 0 (w + 1)) = Some z ->
  exists d, fold_left Z.min (drow A B 0 (w + 1)) z = Z.of_nat d /\ is_optimal_completion A B d.
Proof.
  intros A B w z HB Hz. destruct (fold_min_le (drow A B 0 (w + 1)) z) as (H1 & H2 & H3).
  assert (Hin : In z (drow A B 0 (w + 1))) by (destruct (drow A B 0 (w + 1)); [discriminate|injection Hz as ->; left; reflexivity]).
  assert (G : In (fold_left Z.min (drow A B 0 (w + 1)) z) (drow A B 0 (w + 1))) by (destruct H3 as [->|H3]; assumption).
  set (m := fold_left Z.min (drow A B 0 (w + 1)) z) in *. clearbody m. unfold drow in G. apply in_map_iff in G. destruct G as (t & <- & Ht). apply in_seq in Ht.
  eexists. split; [reflexivity|]. apply optimal_completion_prefix.
  - destruct (Nat.le_gt_cases t (length B)) as [Q|Q]; [exists t; auto|]. exists (length B). split; [lia|]. rewrite firstn_all, firstn_all2 by lia. reflexivity.
  - intros u Hu. apply Nat2Z.inj_le. apply H2. unfold drow. apply in_map_iff. exists u. split; [reflexivity|]. apply in_seq. lia.
Qed.
Lemma drow_end : forall A B w, length B <= w -> last (drow A B 0 (w + 1)) 0%Z = Z.of_nat (dst A B).
Proof. intros A B w H. rewrite Nat.add_1_r, drow_last, firstn_all2 by (cbn; lia). reflexivity. Qed.

Notation answer := is_answer.
Lemma calc_result_ok : forall nb n last_row a broadcast n_labels a_n a_ended b b_len oc blank k label lb A x ended,
  length b = n * nb -> k < n -> lb <= nb -> has_row A (seq_of nb b k lb) (seq_of (nb + 1) last_row k (nb + 1)) ->
  nth_error b_len k = Some lb -> (ended = false -> nth_error a_n k = Some (length A)) -> nth_error a_ended k = Some ended ->
  nth_error a ((if broadcast : bool then 0 else k) * n_labels + label) = Some x ->
  exists d, calc_result_kernel nb n_labels last_row a broadcast a_n a_ended b b_len oc blank k label = Some (Z.of_nat d) /\
    answer oc (if ended || (x =? blank)%Z then A else A ++ [x]) (seq_of nb b k lb) d.
Proof.
  intros nb n last_row a broadcast n_labels a_n a_ended b b_len oc blank k label lb A x ended Lb Hk Hlb HR Elb En Ee Ex.
  unfold calc_result_kernel, load. rewrite Ex, Ee, Elb. cbn [obind].
  assert (LB1 : length (seq_of nb b k lb) = lb) by (eapply seq_of_len; eassumption).
  match goal with |- context [obind ?e _] => assert (G : e = Some (drow (if ended || (x =? blank)%Z then A else A ++ [x]) (seq_of nb b k lb) 0 (lb + 1))) end.
  { destruct ended, (x =? blank)%Z; cbn [negb andb orb]; try (eapply copy_loop_ok; try eassumption; lia).
    rewrite (En eq_refl). cbn [obind]. eapply extend_ok; eassumption. }
  rewrite G. cbn [obind]. set (A' := if ended || (x =? blank)%Z then A else A ++ [x]).
  destruct (nth_error (drow A' (seq_of nb b k lb) 0 (lb + 1)) 0) as [z|] eqn:Ez; [|apply nth_error_None in Ez; rewrite drow_length in Ez; lia].
  cbn [obind]. destruct oc.
  - destruct (drow_min A' (seq_of nb b k lb) lb z) as (d & E & D); [lia|destruct (drow A' (seq_of nb b k lb) 0 (lb + 1)); [discriminate|exact Ez]|]. exists d. rewrite E. split; [reflexivity|exact D].
  - exists (dst A' (seq_of nb b k lb)). rewrite drow_end by lia. split; [reflexivity|apply dst_is].
Qed.
Theorem next_reduce_op_ok : forall nb n n_labels last_row a broadcast a_n a_ended b b_len oc blank (A : nat -> list Z),
  length b = n * nb -> length b_len = n -> length a_ended = n -> Forall (fun l => l <= nb) b_len ->
  length a = (if broadcast : bool then 1 else n) * n_labels ->
  (forall k lb, nth_error b_len k = Some lb -> (nth_error a_ended k = Some false -> nth_error a_n k = Some (length (A k))) /\ has_row (A k) (seq_of nb b k lb) (seq_of (nb + 1) last_row k (nb + 1))) ->
  exists r, next_reduce_op nb n_labels last_row a broadcast a_n a_ended b b_len oc blank = Some r /\ length r = n * n_labels /\
    forall k lb ended label x, nth_error b_len k = Some lb -> nth_error a_ended k = Some ended -> label < n_labels ->
      nth_error a ((if broadcast then 0 else k) * n_labels + label) = Some x ->
      exists d, nth_error r (k * n_labels + label) = Some (Z.of_nat d) /\
        answer oc (if ended || (x =? blank)%Z then A k else A k ++ [x]) (seq_of nb b k lb) d.
Proof.
  intros nb n n_labels last_row a broadcast a_n a_ended b b_len oc blank A Lb Lbl Le Hbl La H. unfold next_reduce_op.
  set (v := fun k label => match calc_result_kernel nb n_labels last_row a broadcast a_n a_ended b b_len oc blank k label with Some v => v | None => 0%Z end).
  assert (Hidx : forall k label, k < n -> label < n_labels -> (if broadcast then 0 else k) * n_labels + label < length a).
  { intros k label Hk Hl. rewrite La. destruct broadcast; [lia|]. apply (Nat.mul_le_mono_r (S k) n n_labels) in Hk. lia. }
  assert (Hv : forall k label, k < n -> label < n_labels -> calc_result_kernel nb n_labels last_row a broadcast a_n a_ended b b_len oc blank k label = Some (v k label)).
  { intros k label Hk Hl. destruct (load_some _ b_len k ltac:(lia)) as (lb & Elb). destruct (load_some _ a_ended k ltac:(lia)) as (e & Ee). destruct (load_some _ a _ (Hidx k label Hk Hl)) as (x & Ex). unfold load in *.
    destruct (H k lb Elb) as [En HR]. assert (Hlb : lb <= nb) by (rewrite Forall_forall in Hbl; apply Hbl; eapply nth_error_In; exact Elb).
    destruct (calc_result_ok nb n last_row a broadcast n_labels a_n a_ended b b_len oc blank k label lb (A k) x e) as (d & E & _); try assumption; [intros ->; exact (En Ee)|]. unfold v. rewrite E. reflexivity. }
  set (g := fun k => concat (map (fun label => [v k label]) (seq 0 n_labels))).
  assert (Hg : forall k, length (g k) = n_labels) by (intros; unfold g; rewrite (concat_rows_len _ _ 1); [lia|reflexivity]).
  rewrite Lbl, (rows_ok _ _ g).
  - eexists. split; [reflexivity|]. split; [apply concat_rows_len; exact Hg|]. intros k lb e label x Elb Ee Hl Ex.
    assert (Hk : k < n) by (rewrite <- Lbl; apply nth_error_Some; congruence). destruct (H k lb Elb) as [En HR].
    assert (Hlb : lb <= nb) by (rewrite Forall_forall in Hbl; apply Hbl; eapply nth_error_In; exact Elb).
    destruct (calc_result_ok nb n last_row a broadcast n_labels a_n a_ended b b_len oc blank k label lb (A k) x e) as (d & E & D); try assumption; [intros ->; exact (En Ee)|].
    exists d. split; [|exact D]. rewrite (Hv k label Hk Hl) in E. injection E as E. rewrite <- E.
    pose proof (concat_rows _ g n_labels n 0 k Hg Hk) as C. cbn [Nat.add] in C.
    assert (G : nth_error (g k) label = Some (v k label)).
    { unfold g. pose proof (concat_rows _ (fun l => [v k l]) 1 n_labels 0 label (fun _ => eq_refl) Hl) as C1. cbn [Nat.add] in C1. rewrite Nat.mul_1_r in C1.
      rewrite <- (Nat.add_0_r label), <- nth_error_skipn'. rewrite Nat.add_0_r. destruct (skipn label (concat (map (fun l => [v k l]) (seq 0 n_labels)))) as [|y l]; [discriminate C1|].
      cbn [firstn] in C1. injection C1 as ->. reflexivity. }
    rewrite <- C, nth_error_firstn', nth_error_skipn' in G. destruct (label <? n_labels); [exact G|discriminate G].
  - intros k Hk. unfold g. apply rows_ok. intros label Hl. rewrite (Hv k label) by lia. reflexivity.
Qed.

(** ** The loop over all symbols *)
Lemma column_ok : forall na i a m k, (forall j, k <= j < k + m -> j * na + i < length a) ->
  exists c, column na i a m k = Some c /\ length c = m /\ forall j, j < m -> nth_error c j = nth_error a ((k + j) * na + i).
Proof.
  intros na i a m. induction m as [|m IH]; intros k H; [exists []; repeat split; lia|]. cbn [column].
  destruct (load_some _ a (k * na + i)) as (x & Ex); [apply H; lia|]. rewrite Ex. cbn [obind]. destruct (IH (k + 1)) as (c & -> & L & N); [intros; apply H; lia|]. cbn [obind].
  exists (x :: c). split; [reflexivity|]. split; [cbn; lia|]. intros [|j] Hj; [rewrite Nat.add_0_r; symmetry; exact Ex|]. cbn [nth_error]. rewrite N by lia. f_equal. f_equal. f_equal. lia.
Qed.
Lemma initial_rows_row : forall n nb k, k < n -> seq_of (nb + 1) (initial_rows n nb) k (nb + 1) = map Z.of_nat (seq 0 (nb + 1)).
Proof.
  intros n nb k Hk. unfold initial_rows. replace (repeat (map Z.of_nat (seq 0 (nb + 1))) n) with (map (fun _ : nat => map Z.of_nat (seq 0 (nb + 1))) (seq 0 n)).
  - unfold seq_of. apply (concat_rows _ (fun _ => map Z.of_nat (seq 0 (nb + 1)))); [intros; rewrite map_length, seq_length; reflexivity|exact Hk].
  - clear Hk. generalize (map Z.of_nat (seq 0 (nb + 1))) as w. intros w. generalize 0 as s. induction n as [|n IH]; intros s; [reflexivity|]. cbn [seq map repeat]. f_equal. apply IH.
Qed.
Lemma initial_has_row : forall n nb k B, k < n -> length B <= nb -> has_row [] B (seq_of (nb + 1) (initial_rows n nb) k (nb + 1)).
Proof.
  intros n nb k B Hk HB t Ht. rewrite initial_rows_row by exact Hk. exists t. rewrite nth_error_map, nth_error_seq by lia. split; [reflexivity|].
  replace t with (dst [] (firstn t B)) at 2; [apply dst_is|]. rewrite dst_nil_l, firstn_length. lia.
Qed.
Lemma via_rows_ok : forall na nb n a a_len b b_len, length a = n * na -> length b = n * nb -> length a_len = n -> length b_len = n ->
  Forall (fun l => l <= na) a_len -> Forall (fun l => l <= nb) b_len ->
  forall fuel i last_row, i + fuel = na ->
  (forall k la lb, nth_error a_len k = Some la -> nth_error b_len k = Some lb -> has_row (seq_of na a k (Nat.min i la)) (seq_of nb b k lb) (seq_of (nb + 1) last_row k (nb + 1))) ->
  (0 < fuel \/ forall k la lb, nth_error a_len k = Some la -> nth_error b_len k = Some lb -> is_row (seq_of na a k la) (seq_of nb b k lb) (seq_of (nb + 1) last_row k (nb + 1)) nb) ->
  exists r, via_rows na nb a a_len b b_len fuel i last_row = Some r /\
    forall k la lb, nth_error a_len k = Some la -> nth_error b_len k = Some lb -> is_row (seq_of na a k la) (seq_of nb b k lb) (seq_of (nb + 1) r k (nb + 1)) nb.
Proof.
  intros na nb n a a_len b b_len La Lb Lal Lbl Hal Hbl fuel. induction fuel as [|fuel IH]; intros i last_row Hi HR HS.
  - exists last_row. split; [reflexivity|]. destruct HS as [HS|HS]; [lia|exact HS].
  - cbn [via_rows]. destruct (column_ok na i a (length a_len) 0) as (c & -> & Lc & Nc); [intros j Hj; rewrite La; assert (Hj' : j < n) by lia; apply (Nat.mul_le_mono_r (S j) n na) in Hj'; lia|]. cbn [obind].
    set (A := fun k => seq_of na a k (Nat.min i (nth k a_len 0))).
    destruct (next_row_op_ok nb n last_row c (repeat i (length a_len)) (map (fun l => l <=? i) a_len) b b_len A) as (r & E & Lr & Hr); try assumption; [lia|rewrite map_length; exact Lal| |].
    + intros k lb Elb. assert (Hk : k < n) by (rewrite <- Lbl; apply nth_error_Some; congruence).
      destruct (load_some _ a_len k ltac:(lia)) as (la & Ela). unfold load in Ela.
      assert (Hla : la <= na) by (rewrite Forall_forall in Hal; apply Hal; eapply nth_error_In; exact Ela).
      assert (HA : A k = seq_of na a k (Nat.min i la)) by (unfold A; rewrite (nth_error_nth _ _ _ Ela); reflexivity).
      rewrite HA. split; [|exact (HR k la lb Ela Elb)]. rewrite nth_error_map, Ela. cbn [option_map]. intros G. injection G as G. apply Nat.leb_gt in G.
      rewrite nth_error_repeat by lia. f_equal. symmetry. rewrite (seq_of_len na a n k) by (assumption || lia). lia.
    + rewrite E. cbn [obind].
      assert (HR' : forall k la lb, nth_error a_len k = Some la -> nth_error b_len k = Some lb ->
          is_row (seq_of na a k (Nat.min (i + 1) la)) (seq_of nb b k lb) (seq_of (nb + 1) r k (nb + 1)) nb).
      { intros k la lb Ela Elb. assert (Hk : k < n) by (rewrite <- Lbl; apply nth_error_Some; congruence).
        assert (Hla : la <= na) by (rewrite Forall_forall in Hal; apply Hal; eapply nth_error_In; exact Ela).
        destruct (seq_of_S na a n k i La Hk ltac:(lia)) as (x & Ex & Sx).
        assert (Ec : nth_error c k = Some x) by (rewrite Nc by lia; exact Ex).
        pose proof (Hr k lb x (la <=? i) Elb Ec) as G. rewrite nth_error_map, Ela in G. specialize (G eq_refl).
        assert (HA : A k = seq_of na a k (Nat.min i la)) by (unfold A; rewrite (nth_error_nth _ _ _ Ela); reflexivity). rewrite HA in G.
        destruct (Nat.leb_spec la i) as [Q|Q].
        - rewrite (Nat.min_r i la Q) in G. rewrite (Nat.min_r (i + 1) la) by lia. exact G.
        - rewrite (Nat.min_l i la) in G by lia. rewrite <- Sx in G. rewrite (Nat.min_l (i + 1) la) by lia. rewrite Nat.add_1_r. exact G. }
      apply IH; [lia| |].
      * intros k la lb Ela Elb. apply is_row_has with (w := nb); [|exact (HR' k la lb Ela Elb)].
        assert (Hk : k < n) by (rewrite <- Lbl; apply nth_error_Some; congruence).
        assert (Hlb : lb <= nb) by (rewrite Forall_forall in Hbl; apply Hbl; eapply nth_error_In; exact Elb). rewrite (seq_of_len nb b n) by assumption. exact Hlb.
      * destruct fuel as [|fuel]; [right|left; lia]. intros k la lb Ela Elb.
        assert (Hla : la <= na) by (rewrite Forall_forall in Hal; apply Hal; eapply nth_error_In; exact Ela).
        pose proof (HR' k la lb Ela Elb) as G. rewrite (Nat.min_r (i + 1) la) in G by lia. exact G.
Qed.
Lemma split_rows_nth : forall w m l k, k < m -> nth_error (split_rows w l m) k = Some (firstn w (skipn (k * w) l)).
Proof.
  intros w m. induction m as [|m IH]; intros l k Hk; [lia|]. cbn [split_rows]. destruct k as [|k]; [reflexivity|]. cbn [nth_error]. rewrite IH by lia. f_equal. f_equal.
  cbn [Nat.mul]. rewrite <- (firstn_skipn w l) at 2. clear. revert l. induction w as [|w IHw]; intros l; [reflexivity|]. apply nth_error_ext. intros i. rewrite !nth_error_skipn'.
  rewrite firstn_skipn. f_equal. lia.
Qed.
Lemma split_rows_len : forall w m l, length (split_rows w l m) = m.
Proof. intros w m. induction m as [|m IH]; intros l; [reflexivity|]. cbn [split_rows length]. rewrite IH. reflexivity. Qed.
Lemma reduce_row_ok : forall oc A B row w, length B <= w -> is_row A B row w -> exists d, reduce_row oc row = Z.of_nat d /\ answer oc A B d.
Proof.
  intros oc A B row w HB HR. apply is_row_drow in HR. subst row. unfold reduce_row. destruct oc; unfold is_answer.
  - apply drow_min; [exact HB|]. rewrite Nat.add_1_r. reflexivity.
  - exists (dst A B). split; [apply drow_end; exact HB|apply dst_is].
Qed.
Theorem via_rows_answer : forall na nb n a a_len b b_len oc, length a = n * na -> length b = n * nb -> length a_len = n -> length b_len = n ->
  Forall (fun l => l <= na) a_len -> Forall (fun l => l <= nb) b_len -> 0 < na \/ Forall (fun l => l = nb) b_len \/ oc = true ->
  exists r, edit_distance_via_rows na nb a a_len b b_len oc = Some r /\ length r = n /\
    forall k la lb, nth_error a_len k = Some la -> nth_error b_len k = Some lb ->
      exists d, nth_error r k = Some (Z.of_nat d) /\ answer oc (seq_of na a k la) (seq_of nb b k lb) d.
Proof.
  intros na nb n a a_len b b_len oc La Lb Lal Lbl Hal Hbl Hcase. unfold edit_distance_via_rows.
  assert (Hbk : forall k lb, nth_error b_len k = Some lb -> k < n /\ lb <= nb /\ length (seq_of nb b k lb) = lb).
  { intros k lb Elb. assert (Hk : k < n) by (rewrite <- Lbl; apply nth_error_Some; congruence).
    assert (Hlb : lb <= nb) by (rewrite Forall_forall in Hbl; apply Hbl; eapply nth_error_In; exact Elb). repeat split; try assumption. eapply seq_of_len; eassumption. }
  destruct (Nat.eq_dec na 0) as [Hz|Hz].
  - subst na. cbn [via_rows obind]. eexists. split; [reflexivity|]. split; [rewrite map_length, split_rows_len; exact Lal|]. intros k la lb Ela Elb.
    destruct (Hbk k lb Elb) as (Hk & Hlb & LBk). rewrite nth_error_map, split_rows_nth by lia. cbn [option_map].
    change (firstn (nb + 1) (skipn (k * (nb + 1)) (initial_rows (length a_len) nb))) with (seq_of (nb + 1) (initial_rows (length a_len) nb) k (nb + 1)).
    assert (Hla : la = 0) by (rewrite Forall_forall in Hal; assert (la <= 0) by (apply Hal; eapply nth_error_In; exact Ela); lia). subst la. rewrite seq_of_0.
    rewrite initial_rows_row by lia. destruct oc.
    + unfold reduce_row, is_answer. replace (map Z.of_nat (seq 0 (nb + 1))) with (drow [] (repeat 0%Z nb) 0 (nb + 1)).
      * exists 0. split; [|apply optimal_completion_prefix; [exists 0; split; [lia|reflexivity]|lia]]. f_equal.
        destruct (fold_min_le (drow [] (repeat 0%Z nb) 0 (nb + 1)) (hd 0%Z (drow [] (repeat 0%Z nb) 0 (nb + 1)))) as (H1 & H2 & H3).
        set (m := fold_left Z.min _ _) in *. assert (hd 0%Z (drow [] (repeat 0%Z nb) 0 (nb + 1)) = 0%Z) by (rewrite Nat.add_1_r; reflexivity). rewrite H in *.
        assert (0 <= m)%Z; [|cbn; lia]. destruct H3 as [->|H3]; [lia|]. unfold drow in H3. apply in_map_iff in H3. destruct H3 as (u & <- & _). lia.
      * unfold drow. apply map_ext_in. intros u Hu. apply in_seq in Hu. rewrite dst_nil_l, firstn_length, repeat_length. f_equal. lia.
    + destruct Hcase as [Hc|[Hc|Hc]]; [lia| |discriminate]. assert (lb = nb) by (rewrite Forall_forall in Hc; apply Hc; eapply nth_error_In; exact Elb). subst lb.
      unfold reduce_row, is_answer. exists (dst [] (seq_of nb b k nb)). split; [|apply dst_is]. rewrite dst_nil_l, LBk, Nat.add_1_r, seq_S, map_app. cbn [map]. rewrite last_last. reflexivity.
  - destruct (via_rows_ok na nb n a a_len b b_len La Lb Lal Lbl Hal Hbl na 0 (initial_rows (length a_len) nb)) as (r & E & Hr); [lia| |left; lia|].
    { intros k la lb Ela Elb. destruct (Hbk k lb Elb) as (Hk & Hlb & LBk). cbn [Nat.min]. rewrite seq_of_0. apply initial_has_row; lia. }
    rewrite E. cbn [obind]. eexists. split; [reflexivity|]. split; [rewrite map_length, split_rows_len; exact Lal|]. intros k la lb Ela Elb.
    destruct (Hbk k lb Elb) as (Hk & Hlb & LBk). rewrite nth_error_map, split_rows_nth by lia. cbn [option_map].
    destruct (reduce_row_ok oc (seq_of na a k la) (seq_of nb b k lb) _ nb ltac:(lia) (Hr k la lb Ela Elb)) as (d & Ed & D). exists d. split; [|exact D]. f_equal. exact Ed.
Qed.

(** ** The layer with a blank label *)
Theorem table_layer_ok : forall nb blank b lb, length b = nb -> lb <= nb -> forall xs row A,
  has_row A (firstn lb b) row -> length row = nb + 1 ->
  exists row', table_layer nb blank b lb xs row (length A) = Some (row', length (A ++ labels blank xs)) /\
    has_row (A ++ labels blank xs) (firstn lb b) row' /\ (xs <> [] -> is_row (A ++ labels blank xs) (firstn lb b) row' nb).
Proof.
  intros nb blank b lb Lb Hlb xs. induction xs as [|[x ended] xs IH]; intros row A HR Lr.
  - exists row. cbn [table_layer labels filter map]. rewrite app_nil_r. split; [reflexivity|]. split; [exact HR|congruence].
  - cbn [table_layer]. set (mask := ended || (x =? blank)%Z).
    destruct (next_row_op_ok nb 1 row [x] [length A] [mask] b [lb] (fun _ => A)) as (r & E & L & Hr).
    + lia.
    + reflexivity.
    + reflexivity.
    + reflexivity.
    + repeat constructor. exact Hlb.
    + intros [|k] l El; [|destruct k; discriminate]. injection El as <-. split; [reflexivity|]. unfold seq_of. cbn [Nat.mul skipn]. rewrite (firstn_all2 row) by lia. exact HR.
    + rewrite E. cbn [obind]. specialize (Hr 0 lb x mask eq_refl eq_refl eq_refl). unfold seq_of in Hr. cbn [Nat.mul skipn] in Hr. rewrite (firstn_all2 r) in Hr by lia.
      assert (EL : labels blank ((x, ended) :: xs) = (if mask then [] else [x]) ++ labels blank xs).
      { unfold labels, mask. cbn [filter fst snd]. destruct ended, (x =? blank)%Z; reflexivity. }
      assert (HA : exists A', A' = (if mask then A else A ++ [x]) /\ length A + (if mask then 0 else 1) = length A' /\ A ++ labels blank ((x, ended) :: xs) = A' ++ labels blank xs).
      { eexists. split; [reflexivity|]. rewrite EL. destruct mask; [split; [lia|reflexivity]|]. rewrite app_length, <- app_assoc. cbn [length]. split; reflexivity. }
      destruct HA as (A' & EA & EN & EX). rewrite EX, EN. rewrite <- EA in Hr.
      destruct (IH r A') as (row' & E' & H1 & H2); [apply is_row_has with (w := nb); [rewrite firstn_length; lia|exact Hr]|lia|].
      exists row'. split; [exact E'|]. split; [exact H1|]. intros _. destruct xs as [|y xs]; [|apply H2; discriminate].
      cbn [table_layer] in E'. cbn [labels filter map]. rewrite app_nil_r. assert (row' = r) by congruence. subst row'. exact Hr.
Qed.
