(** Proofs for C70: best paths. *)
From Coq Require Import Permutation.
From Verif Require Import Base ListLemmas FsaModel BwModel BwSpec BwConcProofs.
Local Open Scope nat_scope.

Lemma connects_snoc {W} (p : list (edge * W)) ew : forall s s', connects s (p ++ [ew]) s' = connects s p (e_from (fst ew)) && (e_to (fst ew) =? s').
Proof.
  induction p as [|a p IH]; intros s s'; cbn [app connects]; [now rewrite Nat.eqb_sym|]. now rewrite IH, andb_assoc.
Qed.
Lemma in_combine_seq {X} (l : list X) : forall k i x, In (i, x) (combine (seq k (length l)) l) <-> exists j, i = k + j /\ nth_error l j = Some x.
Proof.
  induction l as [|a l IH]; intros k i x; cbn [length seq combine].
  - split; [intros []|intros ([|j]&_&H); discriminate].
  - cbn [In]. rewrite IH. split.
    + intros [H|(j&->&H)]; [injection H as <- <-; exists 0; split; [lia|reflexivity]|]. exists (S j). split; [lia|exact H].
    + intros ([|j]&->&H); [left; injection H as ->; f_equal; lia|right]. exists j. split; [lia|exact H].
Qed.

Section Viterbi.
Context {V : Type} (ltb : V -> V -> bool) (add : V -> V -> V) (bot zero : V).
Hypothesis laws : score_laws ltb add bot.
Context (n_time : nat) (seqs : list (nat * (nat * nat))) (edges : list (edge * V)) (am : nat -> nat -> Z -> V).
Notation le := (not_above ltb).
Notation score := (path_score add am 0 zero).
Notation candidates := (candidates add seqs edges am).
Notation next_frame := (next_frame ltb add bot seqs edges am).
Notation seq_len := (seq_len seqs).
Notation best_path := (best_path seqs edges).

Definition cands (t : nat) (prev : nat -> Z * V) : list (nat * (Z * V)) :=
  flat_map (fun '(i, (e, w)) => if t <? seq_len (e_seq e) then [(e_to e, (Z.of_nat i, add (add (snd (prev (e_from e))) w) (am t (e_seq e) (e_emit e))))] else [])
    (combine (seq 0 (length edges)) edges).
Lemma candidates_eq t prev : candidates t prev = map (fun g => SStart (fst g) (snd g)) (cands t prev).
Proof.
  unfold BwModel.candidates, cands. induction (combine (seq 0 (length edges)) edges) as [|[i [e w]] l IH]; [reflexivity|]. cbn [flat_map]. rewrite map_app. f_equal; [now destruct (t <? _)|exact IH].
Qed.
Lemma in_cands t prev x i v : In (x, (i, v)) (cands t prev) <-> exists j e w, i = Z.of_nat j /\ nth_error edges j = Some (e, w) /\ t < seq_len (e_seq e) /\ x = e_to e /\ v = add (add (snd (prev (e_from e))) w) (am t (e_seq e) (e_emit e)).
Proof.
  unfold cands. rewrite in_flat_map. split.
  - intros ((j&e&w)&Hj&H). apply in_combine_seq in Hj. destruct Hj as (j'&->&Hj). destruct (Nat.ltb_spec t (seq_len (e_seq e))); [|destruct H]. destruct H as [H|[]]. injection H as <- <- <-.
    exists (0 + j'), e, w. auto.
  - intros (j&e&w&->&Hj&Ht&->&->). exists (j, (e, w)). split; [apply in_combine_seq; exists j; auto|]. destruct (Nat.ltb_spec t (seq_len (e_seq e))); [now left|lia].
Qed.

Context (torn : bool) (frames : nat -> nat -> Z * V).
Hypothesis H0 : frames 0 = first_frame bot zero seqs.
Hypothesis HF : forall t, t < n_time -> next_frame torn t (frames t) (frames (S t)).

Lemma frame_S t s : t < n_time -> (frames (S t) s = ((-1)%Z, bot) \/ (exists j e w, nth_error edges j = Some (e, w) /\ t < seq_len (e_seq e) /\ e_to e = s
    /\ frames (S t) s = (Z.of_nat j, add (add (snd (frames t (e_from e))) w) (am t (e_seq e) (e_emit e)))))
  /\ forall j e w, nth_error edges j = Some (e, w) -> t < seq_len (e_seq e) -> e_to e = s -> le (add (add (snd (frames t (e_from e))) w) (am t (e_seq e) (e_emit e))) (snd (frames (S t) s)).
Proof.
  intros Ht. pose proof (HF t Ht) as H. unfold BwModel.next_frame in H. rewrite candidates_eq in H. destruct (select_result ltb add bot laws torn _ _ _ H s) as [H1 H2]. split.
  - destruct H1 as [H1|[_ H1]]; [left; exact H1|right]. destruct (frames (S t) s) as [i v] eqn:E. apply in_cands in H1. destruct H1 as (j&e&w&->&Hj&Hl&Hx&->). exists j, e, w. auto.
  - intros j e w Hj Hl He. assert (X : In (s, (Z.of_nat j, add (add (snd (frames t (e_from e))) w) (am t (e_seq e) (e_emit e)))) (cands t (frames t))) by (apply in_cands; exists j, e, w; auto).
    exact (below_le ltb add bot laws _ _ _ (H2 _ X)).
Qed.
Lemma path_score_snoc p : forall t v e w, path_score add am t v (p ++ [(e, w)]) = add (add (path_score add am t v p) w) (am (t + length p) (e_seq e) (e_emit e)).
Proof.
  induction p as [|[e' w'] p IH]; intros t v e w; cbn [app path_score length]; [now rewrite Nat.add_0_r|]. rewrite IH. do 2 f_equal. lia.
Qed.
Lemma edge_mono x y w a : le x y -> le (add (add x w) a) (add (add y w) a).
Proof. intros H. now apply (sl_mono _ _ _ laws), (sl_mono _ _ _ laws). Qed.

Section Owner.
Context (owner : nat -> nat).
Hypothesis HB : batch_of owner (map snd seqs) edges.
Context (b n s0 s1 : nat).
Hypothesis Hb : nth_error seqs b = Some (n, (s0, s1)).
Lemma b_len : seq_len b = n.
Proof. unfold BwModel.seq_len. now rewrite Hb. Qed.
Lemma b_start : owner s0 = b /\ owner s1 = b.
Proof. apply (bo_start _ _ _ HB b s0 s1). rewrite nth_error_map. now rewrite Hb. Qed.
Definition reaches (t s : nat) (p : list (edge * V)) : Prop := length p = t /\ (forall ew, In ew p -> In ew edges) /\ connects s0 p s = true.

Lemma upper t : t <= n_time -> t <= n -> forall s p, reaches t s p -> le (score p) (snd (frames t s)).
Proof.
  induction t as [|t IH]; intros Ht Hn s p (Hl&Hin&Hc).
  - destruct p; [|discriminate]. cbn in Hc. apply Nat.eqb_eq in Hc. subst s. rewrite H0. unfold first_frame. cbn [snd].
    replace (existsb _ seqs) with true; [apply (sl_irr _ _ _ laws)|]. symmetry. apply existsb_exists. exists (n, (s0, s1)). split; [eapply nth_error_In, Hb|]. cbn. apply Nat.eqb_refl.
  - destruct (exists_last (l := p)) as (q&[e w]&->); [now destruct p|]. rewrite app_length in Hl. cbn in Hl. rewrite connects_snoc in Hc. apply andb_true_iff in Hc. destruct Hc as [Hc He]. apply Nat.eqb_eq in He. cbn [fst] in *.
    rewrite path_score_snoc. assert (Hq : reaches t (e_from e) q) by (split; [lia|split; [intros ew Hew; apply Hin, in_or_app; now left|exact Hc]]).
    assert (Hew : In (e, w) edges) by (apply Hin, in_or_app; right; now left). destruct (In_nth_error _ _ Hew) as (j&Hj).
    assert (Hs : e_seq e = b).
    { (* the path stays in the states of b *) clear - Hc Hin HB Hew Hb. assert (G : forall q x y, (forall ew, In ew q -> In ew edges) -> connects x q y = true -> owner y = owner x).
      { induction q0 as [|[e' w'] q' IHq]; intros x y Hq Hxy; cbn in Hxy; [apply Nat.eqb_eq in Hxy; now subst|]. apply andb_true_iff in Hxy. destruct Hxy as [Hx Hy]. apply Nat.eqb_eq in Hx. cbn in Hx, Hy. subst x.
        rewrite (IHq _ _ (fun ew h => Hq ew (or_intror h)) Hy). destruct (bo_edges _ _ _ HB e' w' (Hq _ (or_introl eq_refl))). congruence. }
      pose proof (G q s0 (e_from e) (fun ew h => Hin ew (in_or_app _ _ _ (or_introl h))) Hc) as X. destruct (bo_edges _ _ _ HB e w Hew). destruct b_start. congruence. }
    replace (0 + length q) with t by lia. destruct (frame_S t s ltac:(lia)) as [_ HS]. eapply (le_trans ltb add bot laws); [apply edge_mono, (IH ltac:(lia) ltac:(lia) _ _ Hq)|].
    apply (HS j e w Hj); [rewrite Hs, b_len; lia|exact He].
Qed.
Lemma attained t : t <= n_time -> t <= n -> forall s, owner s = b -> ltb bot (snd (frames t s)) = true -> exists p, reaches t s p /\ labels p = best_path frames b t s /\ score p = snd (frames t s).
Proof.
  induction t as [|t IH]; intros Ht Hn s Hs Hbot.
  - rewrite H0 in *. unfold first_frame in *. cbn [snd] in *. destruct (existsb _ seqs) eqn:E; [|rewrite (sl_irr _ _ _ laws) in Hbot; discriminate]. exists []. split; [|split; reflexivity].
    apply existsb_exists in E. destruct E as ((n'&s'&s'')&Hin&E). cbn in E. apply Nat.eqb_eq in E. subst s'. apply In_nth_error in Hin. destruct Hin as (b'&Hb').
    assert (X : owner s = b') by (apply (bo_start _ _ _ HB b' s s''); rewrite nth_error_map, Hb'; reflexivity). assert (Eb : b' = b) by congruence. rewrite Eb in Hb'.
    rewrite Hb in Hb'. injection Hb' as <- <- <-. split; [reflexivity|]. split; [intros ? []|]. cbn. apply Nat.eqb_refl.
  - destruct (frame_S t s ltac:(lia)) as [[E|(j&e&w&Hj&Hl&He&E)] _]; [rewrite E in Hbot; cbn in Hbot; rewrite (sl_irr _ _ _ laws) in Hbot; discriminate|].
    assert (Hew : In (e, w) edges) by (eapply nth_error_In, Hj). destruct (bo_edges _ _ _ HB e w Hew) as [O1 O2].
    destruct (IH ltac:(lia) ltac:(lia) (e_from e) ltac:(congruence)) as (p&(P1&P2&P3)&P4&P5).
    { destruct (ltb bot (snd (frames t (e_from e)))) eqn:Eb; [reflexivity|]. rewrite E in Hbot. cbn [snd] in Hbot.
      assert (X : le (add (add (snd (frames t (e_from e))) w) (am t (e_seq e) (e_emit e))) bot); [|unfold not_above in X; congruence].
      eapply (le_trans ltb add bot laws); [apply edge_mono; exact Eb|]. eapply (le_trans ltb add bot laws); [apply (sl_mono _ _ _ laws), (sl_add_bot _ _ _ laws)|apply (sl_add_bot _ _ _ laws)]. }
    exists (p ++ [(e, w)]). split; [|split].
    + split; [rewrite app_length; cbn; lia|]. split; [intros ew Hi; apply in_app_or in Hi; destruct Hi as [Hi|[<-|[]]]; auto|]. rewrite connects_snoc. cbn [fst]. rewrite P3. now apply Nat.eqb_eq.
    + unfold labels in *. rewrite map_app, P4. cbn [BwModel.best_path]. destruct (Nat.ltb_spec t (seq_len b)) as [_|Hx]; [|rewrite b_len in Hx; lia]. rewrite E. cbn [fst].
      destruct (Z.leb_spec 0 (Z.of_nat j)); [|lia]. rewrite Nat2Z.id, Hj. reflexivity.
    + rewrite path_score_snoc, P5, E, P1. reflexivity.
Qed.
Lemma best_path_more k cur : n <= k -> best_path frames b k cur = best_path frames b n cur ++ repeat 0%Z (k - n).
Proof.
  intros Hk. replace k with (n + (k - n)) at 1 by lia. generalize (k - n). intros d. induction d as [|d IH]; [rewrite Nat.add_0_r; cbn; now rewrite app_nil_r|].
  rewrite Nat.add_succ_r. cbn [BwModel.best_path]. destruct (Nat.ltb_spec (n + d) (seq_len b)) as [Hx|_]; [rewrite b_len in Hx; lia|]. rewrite IH, <- app_assoc. f_equal.
  clear. induction d as [|d IH]; [reflexivity|]. cbn [repeat app] in *. f_equal. exact IH.
Qed.
End Owner.
Lemma best_path_length b : forall k cur, k <= n_time -> length (best_path frames b k cur) = k.
Proof.
  induction k as [|k IH]; intros cur Hk; [reflexivity|]. cbn [BwModel.best_path].
  assert (X : forall l : list Z, length l = k -> forall c, length (l ++ [c]) = S k) by (intros l Hl c; rewrite app_length, Hl; cbn; lia).
  destruct (k <? seq_len b); [|apply X, IH; lia]. destruct (frame_S k cur ltac:(lia)) as [[E|(j&e&w&Hj&_&_&E)] _]; rewrite E; cbn [fst].
  - cbn. apply X, IH. lia.
  - destruct (Z.leb_spec 0 (Z.of_nat j)); [|lia]. rewrite Nat2Z.id, Hj. apply X, IH. lia.
Qed.
End Viterbi.

Section Determined.
Context {V : Type} (ltb : V -> V -> bool) (add : V -> V -> V) (bot zero : V).
Hypothesis laws : score_laws ltb add bot.
Context (n_time : nat) (seqs : list (nat * (nat * nat))) (edges : list (edge * V)) (am : nat -> nat -> Z -> V).
Lemma cands_ext t p1 p2 : (forall s, p1 s = p2 s) -> cands add seqs edges am t p1 = cands add seqs edges am t p2.
Proof. intros H. unfold cands. induction (combine (seq 0 (length edges)) edges) as [|[i [e w]] l IH]; [reflexivity|]. cbn [flat_map]. rewrite IH, H. reflexivity. Qed.
Lemma frame_determined t prev m1 m2 : next_frame ltb add bot seqs edges am false t prev m1 -> next_frame ltb add bot seqs edges am false t prev m2 -> forall s, m1 s = m2 s.
Proof.
  unfold next_frame. rewrite candidates_eq. intros R1 R2 s. destruct (select_result ltb add bot laws false _ _ _ R1 s) as [A1 A2], (select_result ltb add bot laws false _ _ _ R2 s) as [B1 B2]. cbn [negb] in *.
  assert (X : forall c, In (s, c) (cands add seqs edges am t prev) -> better ltb c ((-1)%Z, bot) -> ~ below ltb true c ((-1)%Z, bot)).
  { intros [i v] Hc [G1 G2] [G|(G3&G4&G5)]; cbn in *; [congruence|]. apply in_cands in Hc. destruct Hc as (j&_&_&->&_). specialize (G2 G3). lia. }
  unfold empty_frame in *. destruct A1 as [A1|[A1 A1']], B1 as [B1|[B1 B1']]; [congruence| | |].
  - exfalso. apply (X _ B1' B1). rewrite <- A1. exact (A2 _ B1').
  - exfalso. apply (X _ A1' A1). rewrite <- B1. exact (B2 _ A1').
  - specialize (A2 _ B1'). specialize (B2 _ A1'). assert (E : fst (m1 s) = fst (m2 s)).
    { cbn in A2, B2. assert (I := sl_irr _ _ _ laws). destruct A2 as [A2|(A3&A4&A5)], B2 as [B2|(B3&B4&B5)]; unfold not_above in *.
      - pose proof (sl_trans _ _ _ laws _ _ _ A2 B2) as Y. rewrite I in Y. discriminate.
      - congruence.
      - congruence.
      - lia. }
    destruct (m1 s) as [i v], (m2 s) as [i' v']. cbn in E. subst i'. apply in_cands in A1', B1'. destruct A1' as (j&e&w&->&Hj&_&_&->), B1' as (j'&e'&w'&Ej&Hj'&_&_&->).
    apply Nat2Z.inj in Ej. subst j'. congruence.
Qed.
Lemma frame_ext t p1 p2 m : (forall s, p1 s = p2 s) -> next_frame ltb add bot seqs edges am false t p1 m -> next_frame ltb add bot seqs edges am false t p2 m.
Proof. intros H. unfold next_frame. rewrite !candidates_eq, (cands_ext t p1 p2 H). auto. Qed.
Lemma best_path_ext f1 f2 b : forall k cur, (forall t s, t <= k -> f1 t s = f2 t s) -> best_path seqs edges f1 b k cur = best_path (V := V) seqs edges f2 b k cur.
Proof.
  induction k as [|k IH]; intros cur H; [reflexivity|]. cbn [best_path]. rewrite (H (S k) cur (Nat.le_refl _)). assert (G : forall c, best_path seqs edges f1 b k c = best_path seqs edges f2 b k c) by (intros c; apply IH; intros; apply H; lia).
  destruct (k <? _); [|now rewrite G]. destruct (0 <=? _)%Z; [|now rewrite G]. destruct (nth_error edges _) as [[e w]|]; [now rewrite G|reflexivity].
Qed.
Lemma viterbi_determined out1 out2 : (forall n q, In (n, q) seqs -> n <= n_time) -> fast_viterbi ltb add bot zero n_time seqs edges am false out1 -> fast_viterbi ltb add bot zero n_time seqs edges am false out2 -> out1 = out2.
Proof.
  intros HL (f1&I1&S1&->) (f2&I2&S2&->). assert (G : forall t s, t <= n_time -> f1 t s = f2 t s).
  { induction t as [|t IH]; intros s Ht; [congruence|]. apply (frame_determined t (f1 t)); [apply S1; lia|]. apply (frame_ext t (f2 t)); [intros; symmetry; apply IH; lia|apply S2; lia]. }
  apply map_ext_in. intros [b [n [s0 s1]]] Hin. apply in_combine_r in Hin. f_equal; [apply best_path_ext; intros; apply G; lia|]. now rewrite G by (eapply HL, Hin).
Qed.
(** there is a result *)
Lemma frames_exist torn k : exists frames, frames 0 = first_frame bot zero seqs /\ forall t, t < k -> next_frame ltb add bot seqs edges am torn t (frames t) (frames (S t)).
Proof.
  induction k as [|k (f&F0&FS)]; [exists (fun _ => first_frame bot zero seqs); split; [reflexivity|intros; lia]|].
  destruct (select_exists ltb torn (empty_frame bot) (cands add seqs edges am k (f k))) as (m&Hm). exists (fun t => if t =? S k then m else f t). split; [exact F0|].
  intros t Ht. destruct (Nat.eqb_spec t (S k)); [lia|]. destruct (Nat.eqb_spec (S t) (S k)) as [E|E]; [injection E as ->; unfold next_frame; rewrite candidates_eq; exact Hm|apply FS; lia].
Qed.
End Determined.
