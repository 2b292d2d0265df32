(** C69-C72: the Baum-Welch and Viterbi kernels. *)
From Coq Require Import Permutation QArith Qcanon Eqdep_dec.
From Verif Require Import Base ListLemmas FsaModel FsaSpec FsaProofs FsaProps BwModel BwSpec BwConcProofs BwViterbiProofs BwProofs BwCtcProofs.
Local Close Scope Qc_scope. Local Close Scope Q_scope.
Local Open Scope nat_scope.

(** ** C69: the atomic updates, for all interleavings of the threads *)
(** No update is lost, none is done twice, and each cell has the result of its updates in some order. *)
Theorem C69_atomic_add : forall K T U (eqb : K -> K -> bool) (f : T -> U -> T), (forall x y, eqb x y = true <-> x = y) ->
  forall m gs m', completes (add_step eqb f) added m (map (fun g => Start (fst g) (snd g)) gs) m' ->
  exists order, Permutation order gs /\ forall x, m' x = fold_left f (at_cell eqb x order) (m x).
Proof. intros K T U eqb f He m gs m' H. exact (atomic_result eqb f He m gs m' H). Qed.
Print Assumptions C69_atomic_add.
(** So the result is determined if the order of the updates does not matter. *)
Theorem C69_atomic_add_determined : forall K T U (eqb : K -> K -> bool) (f : T -> U -> T), (forall x y, eqb x y = true <-> x = y) ->
  (forall a u v, f (f a u) v = f (f a v) u) ->
  forall m gs m', completes (add_step eqb f) added m (map (fun g => Start (fst g) (snd g)) gs) m' ->
  forall x, m' x = fold_left f (at_cell eqb x gs) (m x).
Proof.
  intros K T U eqb f He Hf m gs m' H x. destruct (atomic_result eqb f He m gs m' H) as (order&HP&Hm). rewrite Hm. pose proof (at_cell_perm eqb x _ _ HP) as HQ. generalize (m x).
  induction HQ as [|u l l' _ IH|u v l|l l' l'' _ IH1 _ IH2]; intros a; cbn [fold_left]; [reflexivity|apply IH|now rewrite Hf|now rewrite IH1].
Qed.
Print Assumptions C69_atomic_add_determined.
(** The threads can always return. *)
Theorem C69_atomic_add_total : forall K T U (eqb : K -> K -> bool) (f : T -> U -> T) m gs, exists m', completes (add_step eqb f) added m (map (fun g => Start (fst g) (snd g)) gs) m'.
Proof. intros K T U eqb f m gs. exact (atomic_exists eqb f m gs). Qed.
Print Assumptions C69_atomic_add_total.
(** Each cell is the initial one or one of the candidates for it, and none of these is better. *)
Theorem C69_select_max : forall V (ltb : V -> V -> bool) add bot, score_laws ltb add bot ->
  forall torn m gs m', completes (select_step ltb torn) selected m (map (fun g => SStart (fst g) (snd g)) gs) m' ->
  forall x, (m' x = m x \/ In (x, m' x) gs) /\ below ltb (negb torn) (m x) (m' x) /\ forall c, In (x, c) gs -> below ltb (negb torn) c (m' x).
Proof.
  intros V ltb add bot L torn m gs m' H x. destruct (select_result ltb add bot L torn m gs m' H x) as [H1 H2]. split; [tauto|]. split; [|exact H2].
  destruct H1 as [->|[H1 _]]; [exact (below_refl ltb add bot L _ _)|exact (better_below ltb _ _ _ H1)].
Qed.
Print Assumptions C69_select_max.
Theorem C69_select_max_total : forall V (ltb : V -> V -> bool) torn m gs, exists m', completes (select_step ltb torn) selected m (map (fun g => SStart (fst g) (snd g)) gs) m'.
Proof. intros V ltb torn m gs. exact (select_exists ltb torn m gs). Qed.
Print Assumptions C69_select_max_total.

(** The scores: integers and the negative infinity. *)
Definition z_ltb (a b : option Z) : bool := match a, b with _, None => false | None, Some _ => true | Some x, Some y => (x <? y)%Z end.
Definition z_add (a b : option Z) : option Z := match a, b with Some x, Some y => Some (x + y)%Z | _, _ => None end.
Lemma z_laws : score_laws z_ltb z_add None.
Proof.
  split; unfold not_above.
  - intros [x|]; [apply Z.ltb_irrefl|reflexivity].
  - intros [x|] [y|] [z|]; cbn; try discriminate; auto. rewrite !Z.ltb_lt. lia.
  - intros [x|] [y|] [z|]; cbn; try discriminate; auto. rewrite !Z.ltb_ge. lia.
  - intros [x|] [y|] [z|]; cbn; try discriminate; auto. rewrite !Z.ltb_ge. lia.
  - now intros [x|].
  - now intros [x|].
Qed.
(** The copy of the struct is not one read: then the index that is kept need not be the smallest. *)
Theorem C69_torn_read_refuted : exists gs m', completes (select_step z_ltb true) selected (empty_frame None) (map (fun g => SStart (fst g) (snd g)) gs) m'
  /\ exists c, In (0, c) gs /\ ~ below z_ltb true c (m' 0).
Proof.
  exists [(0, (0%Z, Some 5%Z)); (0, (1%Z, Some 7%Z)); (0, (2%Z, Some 7%Z))]. eexists. split.
  - eexists. split.
    + eapply (run_step _ _ _ 0); [reflexivity|apply sel_loop; reflexivity|]. eapply (run_step _ _ _ 0); [reflexivity|apply sel_read|]. cbn. eapply (run_step _ _ _ 0); [reflexivity|apply sel_cas; reflexivity|].
      eapply (run_step _ _ _ 1); [reflexivity|apply sel_loop; reflexivity|]. eapply (run_step _ _ _ 1); [reflexivity|apply sel_idx; reflexivity|].
      eapply (run_step _ _ _ 2); [reflexivity|apply sel_loop; reflexivity|]. eapply (run_step _ _ _ 2); [reflexivity|apply sel_read|]. cbn. eapply (run_step _ _ _ 2); [reflexivity|apply sel_cas; reflexivity|].
      eapply (run_step _ _ _ 1); [reflexivity|apply sel_idx_val|]. apply run_end.
    + cbn. repeat constructor; eexists _, _; reflexivity.
  - exists (1%Z, Some 7%Z). split; [right; now left|]. cbn. intros [H|(_&_&H)]; [discriminate H|lia].
Qed.
Print Assumptions C69_torn_read_refuted.
Example C69_run : exists m', completes (add_step Nat.eqb (prob_add Nat.add 0)) added (fun _ => 0) (map (fun g => Start (fst g) (snd g)) [(3, Some 5); (4, Some 1); (3, Some 7)]) m' /\ m' 3 = 12 /\ m' 4 = 1.
Proof.
  destruct (C69_atomic_add_total _ _ _ Nat.eqb (prob_add Nat.add 0) (fun _ => 0) [(3, Some 5); (4, Some 1); (3, Some 7)]) as (m'&H). exists m'. split; [exact H|].
  destruct (C69_atomic_add _ _ _ _ _ Nat.eqb_eq _ _ _ H) as (o&HP&Hm). rewrite !Hm.
  assert (G : forall l a, Forall (fun u => u <> None) l -> fold_left (prob_add Nat.add 0) l a = a + fold_right (fun u s => match u with Some y => y | None => 0 end + s) 0 l).
  { induction l as [|[y|] l IH]; intros a Hl; [cbn; lia| |inversion Hl; congruence]. inversion Hl; subst. cbn. rewrite IH by assumption. lia. }
  assert (P : forall l l', Permutation l l' -> fold_right (fun (u : option nat) s => match u with Some y => y | None => 0 end + s) 0 l = fold_right (fun u s => match u with Some y => y | None => 0 end + s) 0 l') by (induction 1; cbn; lia).
  pose proof (at_cell_perm Nat.eqb 3 _ _ HP) as P3. pose proof (at_cell_perm Nat.eqb 4 _ _ HP) as P4. split.
  - rewrite G; [rewrite (P _ _ P3); reflexivity|]. eapply Permutation_Forall; [symmetry; exact P3|]. repeat constructor; discriminate.
  - rewrite G; [rewrite (P _ _ P4); reflexivity|]. eapply Permutation_Forall; [symmetry; exact P4|]. repeat constructor; discriminate.
Qed.

(** ** C70: FastViterbiOp *)
(** For each sequence of the batch: the labels are as long as the scores, 0 after the end of the sequence; the score is the
    best of all paths of the sequence through its automaton, and the labels are those of a path with this score. *)
Theorem C70_viterbi : forall V (ltb : V -> V -> bool) add bot zero, score_laws ltb add bot ->
  forall n_time seqs edges am torn out owner, batch_of owner (map snd seqs) edges -> fast_viterbi ltb add bot zero n_time seqs edges am torn out ->
  length out = length seqs /\
  forall b n s s', nth_error seqs b = Some (n, (s, s')) -> n <= n_time ->
  exists xs v, nth_error out b = Some (xs ++ repeat 0%Z (n_time - n), v) /\ length xs = n /\ best_of ltb add bot zero am edges s s' n xs v.
Proof.
  intros V ltb add bot zero L n_time seqs edges am torn out owner HB (frames&F0&FS&->). split; [now rewrite map_length, combine_length, seq_length, Nat.min_id|].
  intros b n s s' Hb Hn. exists (best_path seqs edges frames b n s'), (snd (frames n s')). split; [|split; [|split]].
  - rewrite nth_error_map. assert (E : nth_error (combine (seq 0 (length seqs)) seqs) b = Some (b, (n, (s, s')))).
    { assert (G : forall X (l : list X) k b x, nth_error l b = Some x -> nth_error (combine (seq k (length l)) l) b = Some (k + b, x)).
      { clear. induction l as [|y l IH]; intros k b x H; [destruct b; discriminate|]. destruct b as [|b]; cbn in *; [injection H as ->; now rewrite Nat.add_0_r|]. rewrite (IH (S k) b x H). do 2 f_equal. lia. }
      rewrite (G _ seqs 0 b _ Hb). reflexivity. }
    rewrite E. cbn [option_map]. rewrite (best_path_more ltb add bot n_time seqs edges am torn frames FS b n s s' Hb n_time s' Hn). reflexivity.
  - apply (best_path_length ltb add bot L n_time seqs edges am torn frames FS). exact Hn.
  - intros p (P1&P2&P3). apply (upper ltb add bot zero L n_time seqs edges am torn frames F0 FS owner HB b n s s' Hb n Hn (Nat.le_refl _)). repeat split; assumption.
  - intros Hv. destruct (b_start seqs edges owner HB b n s s' Hb) as [O1 O2].
    destruct (attained ltb add bot zero L n_time seqs edges am torn frames F0 FS owner HB b n s s' Hb n Hn (Nat.le_refl _) s' O2 Hv) as (p&(P1&P2&P3)&P4&P5). exists p. repeat split; assumption.
Qed.
Print Assumptions C70_viterbi.
(** Two runs agree, also for equal scores, if the struct is read at once. *)
Theorem C70_determined : forall V (ltb : V -> V -> bool) add bot zero, score_laws ltb add bot ->
  forall n_time seqs edges am out out', (forall n q, In (n, q) seqs -> n <= n_time) ->
  fast_viterbi ltb add bot zero n_time seqs edges am false out -> fast_viterbi ltb add bot zero n_time seqs edges am false out' -> out = out'.
Proof. intros V ltb add bot zero L n_time seqs edges am out out' HL H1 H2. exact (viterbi_determined ltb add bot zero L n_time seqs edges am out out' HL H1 H2). Qed.
Print Assumptions C70_determined.
Theorem C70_total : forall V (ltb : V -> V -> bool) add bot zero n_time seqs edges am torn, exists out, fast_viterbi ltb add bot zero n_time seqs edges am torn out.
Proof. intros V ltb add bot zero n_time seqs edges am torn. destruct (frames_exist ltb add bot zero seqs edges am torn n_time) as (fr&F0&FS). eexists _, fr. repeat split; [exact F0|exact FS]. Qed.
Print Assumptions C70_total.
(** Two sequences, one of length 3 and one of length 2; two paths for the first. *)
Definition v_edges : list (edge * option Z) :=
  [(mk 0 0 1 0, Some 0%Z); (mk 0 1 2 0, Some (-1)%Z); (mk 1 1 3 0, Some 0%Z); (mk 2 3 4 1, Some 0%Z); (mk 3 3 5 1, Some 0%Z)].
Definition v_seqs : list (nat * (nat * nat)) := [(3, (0, 1)); (2, (2, 3))].
Definition v_am (t b : nat) (c : Z) : option Z := Some (if (c =? 3)%Z then 2 else 1)%Z.
Example C70_run : exists out, fast_viterbi z_ltb z_add None (Some 0%Z) 4 v_seqs v_edges v_am true out /\ batch_of (fun s => if s <=? 1 then 0 else 1) (map snd v_seqs) v_edges
  /\ nth_error out 0 = Some ([2; 3; 3; 0]%Z, Some 4%Z) /\ nth_error out 1 = Some ([4; 5; 0; 0]%Z, Some 2%Z).
Proof.
  destruct (C70_total _ z_ltb z_add None (Some 0%Z) 4 v_seqs v_edges v_am true) as (out&H). exists out. split; [exact H|].
  assert (HB : batch_of (fun s => if s <=? 1 then 0 else 1) (map snd v_seqs) v_edges).
  { split; [intros e w Hin; repeat (destruct Hin as [E|Hin]; [injection E as <- <-; now split|]); destruct Hin|].
    intros b s s' Hb. destruct b as [|[|[|b]]]; cbn in Hb; try discriminate; injection Hb as <- <-; now split. }
  split; [exact HB|]. destruct (C70_viterbi _ _ _ _ _ z_laws _ _ _ _ _ _ _ HB H) as [_ G].
  assert (Q : forall b n s s' l c, nth_error v_seqs b = Some (n, (s, s')) -> n <= 4 -> forall p, In p (tuples v_edges n) -> connects s p s' = true -> path_score z_add v_am 0 (Some 0%Z) p = Some c -> labels p = l ->
    forallb (fun q => negb (connects s q s') || (z_ltb (path_score z_add v_am 0 (Some 0%Z) q) (Some c)) || (if list_eq_dec Z.eq_dec (labels q) l then match path_score z_add v_am 0 (Some 0%Z) q with Some d => (d =? c)%Z | None => false end else false)) (tuples v_edges n) = true ->
    nth_error out b = Some (l ++ repeat 0%Z (4 - n), Some c)).
  { intros b n s s' l c Hb Hn p Hp Hc Hs Hl HA. destruct (G b n s s' Hb Hn) as (xs&v&E1&E2&U&A). assert (Hpc : complete_path v_edges s s' n p) by (apply in_tuples in Hp; destruct Hp; split; auto).
    pose proof (U p Hpc) as Up. rewrite Hs in Up. destruct v as [d|]; [|discriminate Up]. destruct (A eq_refl) as (q&(Q1&Q2&Q3)&Q4&Q5). rewrite forallb_forall in HA.
    assert (Hq : In q (tuples v_edges n)).
    { clear - Q1 Q2. revert n Q1. induction q as [|e q IH]; intros n Q1; [subst; now left|]. destruct n as [|n]; [discriminate|]. cbn [tuples]. apply in_flat_map. exists e. split; [apply Q2; now left|]. apply in_map, IH; [intros x Hx; apply Q2; now right|now injection Q1]. }
    specialize (HA q Hq). rewrite Q3, Q5 in HA. cbn [negb orb] in HA. unfold not_above in Up. change ((d <? c)%Z = false) in Up. cbn [z_ltb] in HA. rewrite Up in HA. cbn [orb] in HA.
    destruct (list_eq_dec Z.eq_dec (labels q) l) as [El|]; [|discriminate HA]. apply Z.eqb_eq in HA. rewrite E1, <- Q4, El, HA. reflexivity. }
  split.
  - refine (Q 0 3 0 1 [2; 3; 3]%Z 4%Z eq_refl ltac:(lia) [(mk 0 1 2 0, Some (-1)%Z); (mk 1 1 3 0, Some 0%Z); (mk 1 1 3 0, Some 0%Z)] _ eq_refl eq_refl eq_refl _); [cbn; tauto|vm_compute; reflexivity].
  - refine (Q 1 2 2 3 [4; 5]%Z 2%Z eq_refl ltac:(lia) [(mk 2 3 4 1, Some 0%Z); (mk 3 3 5 1, Some 0%Z)] _ eq_refl eq_refl eq_refl _); [cbn; tauto|vm_compute; reflexivity].
Qed.

(** ** C71: FastBaumWelchOp *)
(** For each frame within a sequence, [sums] is the sum over all paths of the sequence through its automaton, and [out] is for
    each label the part of those with this label in this frame. If there is no path, or behind the end, [out] is zero. *)
Theorem C71_posteriors : forall T (add mul quot : T -> T -> T) zero one is_zero, number_laws add mul quot zero one is_zero ->
  forall n_frames start_end edges am index out sums owner, batch_of owner start_end edges ->
  fast_baum_welch add mul quot zero one is_zero n_frames start_end edges am index out sums ->
  forall b n s s', nth_error start_end b = Some (s, s') -> n <= n_frames -> (forall t, t < n_frames -> index t b = (t <? n)) ->
  let total := sum_paths add mul zero one am edges s s' n any_path in
  (forall t, t < n -> sums t b = (if is_zero total then one else total) /\
     forall c, out (t, b, c) = if is_zero total then zero else quot (sum_paths add mul zero one am edges s s' n (has_label t c)) total) /\
  (forall t, n <= t < n_frames -> sums t b = one /\ forall c, out (t, b, c) = zero).
Proof.
  intros T add mul quot zero one is_zero N n_frames start_end edges am index out sums owner HB (fw&bw&F0&FS&B0&BS&Hs&Ho) b n s s' Hb Hn HX total.
  pose proof (fun t Ht => seq_sum_b add mul quot zero one is_zero N n_frames start_end edges am index owner HB b n s s' Hb Hn HX fw bw F0 FS B0 BS t Ht) as S1.
  pose proof (fun t c Ht => result_at add mul quot zero one is_zero N n_frames start_end edges am index owner HB b n s s' Hb Hn HX fw bw F0 FS B0 BS out t c Ho Ht) as S2.
  split; intros t Ht.
  - split; [|intros c; rewrite (S2 t c ltac:(lia)); destruct (Nat.ltb_spec t n); [reflexivity|lia]]. rewrite Hs. unfold sum_output. cbv zeta.
    change (edge_buffer mul zero is_zero edges am false t _ _) with (buf mul zero one is_zero n_frames start_end edges am index fw bw t). rewrite (S1 t ltac:(lia)). destruct (Nat.ltb_spec t n); [reflexivity|lia].
  - split; [|intros c; rewrite (S2 t c ltac:(lia)); destruct (Nat.ltb_spec t n); [lia|reflexivity]]. rewrite Hs. unfold sum_output. cbv zeta.
    change (edge_buffer mul zero is_zero edges am false t _ _) with (buf mul zero one is_zero n_frames start_end edges am index fw bw t). rewrite (S1 t ltac:(lia)). destruct (Nat.ltb_spec t n); [lia|].
    now rewrite (is_zero_z _ _ _ _ _ _ N).
Qed.
Print Assumptions C71_posteriors.
(** So the posteriors of a frame sum up to one, over any list of all labels. *)
Theorem C71_sum_to_one : forall T (add mul quot : T -> T -> T) zero one is_zero, number_laws add mul quot zero one is_zero -> (forall a, a <> zero -> quot a a = one) ->
  forall n_frames start_end edges am index out sums owner, batch_of owner start_end edges ->
  fast_baum_welch add mul quot zero one is_zero n_frames start_end edges am index out sums ->
  forall b n s s', nth_error start_end b = Some (s, s') -> n <= n_frames -> (forall t, t < n_frames -> index t b = (t <? n)) ->
  sum_paths add mul zero one am edges s s' n any_path <> zero ->
  forall alphabet, NoDup alphabet -> (forall e w, In (e, w) edges -> In (e_emit e) alphabet) ->
  forall t, t < n -> sum_over add zero alphabet (fun c => out (t, b, c)) = one.
Proof.
  intros T add mul quot zero one is_zero N HQ n_frames start_end edges am index out sums owner HB H b n s s' Hb Hn HX Hz al HN Hal t Ht.
  destruct (C71_posteriors _ _ _ _ _ _ _ N _ _ _ _ _ _ _ _ HB H b n s s' Hb Hn HX) as [G _]. destruct (G t Ht) as [_ G2]. clear G. cbv zeta in G2. rewrite <- (HQ _ Hz).
  transitivity (sum_over add zero al (fun c => quot (sum_paths add mul zero one am edges s s' n (has_label t c)) (sum_paths add mul zero one am edges s s' n any_path))).
  { apply sum_ext. intros c _. rewrite G2. destruct (is_zero _) eqn:E; [apply (nl_is_zero _ _ _ _ _ _ N) in E; contradiction|reflexivity]. }
  rewrite (sum_quot _ _ _ _ _ _ N) by exact Hz. f_equal. unfold sum_paths.
  transitivity (sum_over add zero al (fun c => sum_over add zero (tuples edges n) (fun p => if connects s p s' && has_label t c p then path_weight mul one am 0 p else zero))).
  { apply sum_ext. intros c _. apply (sum_filter _ _ _ _ _ _ N). }
  rewrite (sum_swap _ _ _ _ _ _ N), (sum_filter _ _ _ _ _ _ N). apply sum_ext. intros p Hp. apply in_tuples in Hp. destruct Hp as [Hp1 Hp2]. unfold any_path. rewrite andb_true_r.
  destruct (connects s p s'); [|now apply (sum_zero _ _ _ _ _ _ N)]. cbn [andb]. unfold has_label. destruct (nth_error (labels p) t) as [c|] eqn:E.
  - rewrite <- (pick_one _ _ _ _ _ _ N Z.eq_dec al c (fun _ => path_weight mul one am 0 p) HN) at 1; [|].
    + apply sum_ext. intros c' _. unfold ind. destruct (Z.eq_dec c c') as [->|]; [now rewrite Z.eqb_refl|]. destruct (Z.eqb_spec c c'); [contradiction|reflexivity].
    + unfold labels in E. rewrite nth_error_map in E. destruct (nth_error p t) as [[e w]|] eqn:E2; [|discriminate E]. injection E as <-. apply (Hal e w). apply Hp2. eapply nth_error_In, E2.
  - exfalso. apply nth_error_None in E. unfold labels in E. rewrite map_length in E. lia.
Qed.
Print Assumptions C71_sum_to_one.
Theorem C71_total : forall T (add mul quot : T -> T -> T) zero one is_zero n_frames start_end edges am index,
  exists out sums, fast_baum_welch add mul quot zero one is_zero n_frames start_end edges am index out sums.
Proof. intros. apply result_exists. Qed.
Print Assumptions C71_total.

(** The numbers: rationals that are not negative. *)
Definition number := {q : Qc | Qle_bool 0 (this q) = true}.
Lemma number_eq (a b : number) : proj1_sig a = proj1_sig b -> a = b.
Proof. destruct a as [a Ha], b as [b Hb]. cbn. intros <-. f_equal. apply UIP_dec, bool_dec. Qed.
Lemma number_pos (a : Qc) : Qle_bool 0 (this a) = true <-> (0 <= a)%Qc.
Proof. apply Qle_bool_iff. Qed.
Definition number_of (q : Qc) (H : (0 <= q)%Qc) : number := exist _ q (proj2 (number_pos q) H).
Lemma pos (a : number) : (0 <= proj1_sig a)%Qc. Proof. destruct a as [a Ha]. now apply number_pos. Qed.
Lemma add_pos (a b : number) : (0 <= proj1_sig a + proj1_sig b)%Qc.
Proof. pose proof (Qcplus_le_compat _ _ _ _ (pos a) (pos b)) as H. now rewrite Qcplus_0_l in H. Qed.
Lemma mul_pos (a b : number) : (0 <= proj1_sig a * proj1_sig b)%Qc.
Proof. pose proof (Qcmult_le_compat_r _ _ _ (pos a) (pos b)) as H. now rewrite Qcmult_0_l in H. Qed.
Lemma inv_pos (a : number) : (0 <= / proj1_sig a)%Qc.
Proof. pose proof (pos a) as H. unfold Qcle in *. cbn [this Qcinv Q2Qc] in *. rewrite !Qred_correct. apply Qinv_le_0_compat. rewrite Qred_correct in H. exact H. Qed.
Definition n_add (a b : number) : number := number_of _ (add_pos a b).
Definition n_mul (a b : number) : number := number_of _ (mul_pos a b).
Definition n_inv (a : number) : number := number_of _ (inv_pos a).
Definition n_quot (a b : number) : number := n_mul a (n_inv b).
Definition n_zero : number := exist _ (Q2Qc 0) eq_refl.
Definition n_one : number := exist _ (Q2Qc 1) eq_refl.
Definition n_is_zero (a : number) : bool := Qeq_bool (this (proj1_sig a)) 0.
Lemma n_laws : number_laws n_add n_mul n_quot n_zero n_one n_is_zero.
Proof.
  split; intros; try (apply number_eq; cbn [proj1_sig n_add n_mul n_quot n_zero n_one number_of]).
  - apply Qcplus_comm.
  - apply Qcplus_assoc.
  - apply Qcplus_0_l.
  - apply Qcmult_comm.
  - apply Qcmult_assoc.
  - apply Qcmult_1_l.
  - apply Qcmult_0_l.
  - apply Qcmult_plus_distr_r.
  - apply (f_equal (@proj1_sig _ _)) in H. cbn in H. apply Qcle_antisym; [|apply pos]. pose proof (Qcplus_le_compat _ _ _ _ (Qcle_refl (proj1_sig a)) (pos b)) as G. rewrite H, Qcplus_0_r in G. exact G.
  - unfold n_is_zero. split; intros H.
    + apply Qeq_bool_iff in H. apply number_eq, Qc_is_canon. cbn [n_zero proj1_sig]. rewrite H. reflexivity.
    + subst a. reflexivity.
  - apply Qcmult_plus_distr_l.
  - apply Qcmult_0_l.
Qed.
Lemma n_quot_self a : a <> n_zero -> n_quot a a = n_one.
Proof. intros H. apply number_eq. cbn. apply Qcmult_inv_r. intros E. apply H, number_eq. exact E. Qed.
(** The batch from before, as probabilities. The second sequence ends after two frames. *)
Lemma nn_pos a d : (0 <= Q2Qc (Zpos a # d))%Qc.
Proof. unfold Qcle. cbn [this Q2Qc]. rewrite !Qred_correct. unfold Qle. cbn. lia. Qed.
Definition nn (a : positive) (d : positive) : number := number_of (Q2Qc (Zpos a # d)) (nn_pos a d).
Definition w_edges : list (edge * number) :=
  [(mk 0 0 1 0, n_one); (mk 0 1 2 0, nn 1 2); (mk 1 1 3 0, n_one); (mk 2 3 4 1, n_one); (mk 3 3 5 1, n_one)].
Definition w_se : list (nat * nat) := [(0, 1); (2, 3)].
Definition w_am (t b : nat) (c : Z) : number := nn (if (c =? 3)%Z then 2 else 1) 4.
Definition w_index (t b : nat) : bool := t <? (if b =? 0 then 3 else 2).
Example C71_run : exists out sums, fast_baum_welch n_add n_mul n_quot n_zero n_one n_is_zero 4 w_se w_edges w_am w_index out sums
  /\ batch_of (fun s => if s <=? 1 then 0 else 1) w_se w_edges
  /\ proj1_sig (sums 1 0) = Q2Qc (7 # 128) /\ proj1_sig (sums 0 1) = Q2Qc (1 # 16) /\ proj1_sig (sums 2 1) = Q2Qc 1
  /\ proj1_sig (out (1, 0, 3%Z)) = Q2Qc (4 # 7) /\ proj1_sig (out (1, 0, 2%Z)) = Q2Qc (2 # 7) /\ proj1_sig (out (1, 0, 1%Z)) = Q2Qc (1 # 7)
  /\ proj1_sig (out (1, 1, 5%Z)) = Q2Qc 1 /\ proj1_sig (out (2, 1, 5%Z)) = Q2Qc 0
  /\ sum_over n_add n_zero [1; 2; 3; 4; 5]%Z (fun c => out (1, 0, c)) = n_one.
Proof.
  destruct (C71_total _ n_add n_mul n_quot n_zero n_one n_is_zero 4 w_se w_edges w_am w_index) as (out&sums&H). exists out, sums. split; [exact H|].
  assert (HB : batch_of (fun s => if s <=? 1 then 0 else 1) w_se w_edges).
  { split; [intros e w Hin; repeat (destruct Hin as [E|Hin]; [injection E as <- _; now split|]); destruct Hin|].
    intros b s s' Hb. destruct b as [|[|[|b]]]; cbn in Hb; try discriminate; injection Hb as <- <-; now split. }
  split; [exact HB|].
  destruct (C71_posteriors _ _ _ _ _ _ _ n_laws _ _ _ _ _ _ _ _ HB H 0 3 0 1 eq_refl ltac:(lia) ltac:(reflexivity)) as [P1 _].
  destruct (C71_posteriors _ _ _ _ _ _ _ n_laws _ _ _ _ _ _ _ _ HB H 1 2 2 3 eq_refl ltac:(lia) ltac:(reflexivity)) as [P2 P3].
  destruct (P1 1 ltac:(lia)) as [E1 E2]. destruct (P2 0 ltac:(lia)) as [E3 _]. destruct (P2 1 ltac:(lia)) as [_ E4]. destruct (P3 2 ltac:(lia)) as [E5 E6]. rewrite E1, E3, E5, !E2, E4, E6. clear - H HB.
  do 8 (split; [apply Qc_is_canon; vm_compute; reflexivity|]).
  apply (C71_sum_to_one _ _ _ _ _ _ _ n_laws n_quot_self _ _ _ _ _ _ _ _ HB H 0 3 0 1 eq_refl ltac:(lia) ltac:(reflexivity)); [|repeat constructor; cbn; lia| |lia].
  - intros E. apply (f_equal (fun a => Qeq_bool (this (proj1_sig a)) 0)) in E. vm_compute in E. discriminate E.
  - intros e w Hin. repeat (destruct Hin as [E|Hin]; [injection E as <- _; cbn; tauto|]). destruct Hin.
Qed.

(** ** C72: CTC *)
(** The automaton of [get_ctc_fsa_fast_bw] in [FastBaumWelchOp]: [sums] is the sum over all alignments of the targets, [out] the
    part of those with this label in this frame. *)
Theorem C72_ctc_posteriors : forall T (add mul quot : T -> T -> T) zero one is_zero, number_laws add mul quot zero one is_zero ->
  forall rows n_time lens blank f, Forall (fun r => length r = n_time) rows -> get_ctc_fsa rows n_time lens blank = Ok f ->
  forall n_frames am index out sums,
  fast_baum_welch add mul quot zero one is_zero n_frames (f_start_end f) (map (fun e => (e, one)) (f_edges f)) am index out sums ->
  forall b row len n alphabet, nth_error rows b = Some row -> nth_error lens b = Some len -> Forall (fun x => x <> blank) (firstn len row) ->
  n <= n_frames -> (forall t, t < n_frames -> index t b = (t <? n)) ->
  NoDup alphabet -> (forall x, x = blank \/ In x (firstn len row) -> In x alphabet) ->
  let alignments := sum_alignments add mul zero one am b alphabet blank (firstn len row) n in
  let total := alignments (fun _ => true) in
  (forall t, t < n -> sums t b = (if is_zero total then one else total) /\
     forall c, out (t, b, c) = if is_zero total then zero else quot (alignments (label_at t c)) total) /\
  (forall t, n <= t < n_frames -> sums t b = one /\ forall c, out (t, b, c) = zero).
Proof.
  intros T add mul quot zero one is_zero N rows n_time lens blank f Hr Hf n_frames am index out sums H b row len n al Hrow Hlen Hnb Hn HX HN Hal alignments total.
  destruct (ctc_facts _ _ _ _ _ Hr Hf) as [HSE HE]. pose proof (C58_separate _ _ _ _ _ Hr Hf) as HS. destruct (C58_ctc_language _ _ _ _ _ Hr Hf) as [HL HP].
  pose proof (separate_batch f (fun _ => one) HS HSE) as HB. cbv beta in HB. destruct (nth_error (f_start_end f) b) as [[s s']|] eqn:Hb.
  2:{ exfalso. apply nth_error_None in Hb. assert (X : nth_error rows b <> None) by congruence. apply nth_error_Some in X. lia. }
  assert (G : forall P, sum_paths add mul zero one am (map (fun e => (e, one)) (f_edges f)) s s' n (fun p => P (labels p)) = alignments P).
  { intros P. unfold sum_paths, alignments, sum_alignments. rewrite !(sum_filter _ _ _ _ _ _ N).
    pose proof (strings_sum add mul quot zero one is_zero N am (f_edges f) (owner_of (f_start_end f)) b s' al) as X. 
    assert (HO : forall e, In e (f_edges f) -> owner_of (f_start_end f) (e_from e) = e_seq e /\ owner_of (f_start_end f) (e_to e) = e_seq e).
    { intros e He. apply (bo_edges _ _ _ HB e one). now apply (in_map (fun e => (e, one))). }
    specialize (X HO HN (fun e He => Hal _ (HE b row len Hrow Hlen e He)) n s 0 P (proj1 (bo_start _ _ _ HB b s s' Hb))). unfold ind in X. rewrite X. apply sum_ext. intros xs _.
    specialize (HP b row len Hrow Hlen Hnb xs). unfold paths in HP. rewrite Hb in HP. unfold edges_of in HP. rewrite HP. destruct (list_eqb _ _), (P xs); cbn [exactly times andb]; try reflexivity. apply (add_zero_r _ _ _ _ _ _ N). }
  pose proof (C71_posteriors _ _ _ _ _ _ _ N _ _ _ _ _ _ _ _ HB H b n s s' Hb Hn HX) as C. cbv zeta in C.
  assert (E1 : sum_paths add mul zero one am (map (fun e => (e, one)) (f_edges f)) s s' n any_path = total) by exact (G (fun _ => true)). rewrite E1 in C. destruct C as [C1 C2]. split; [|exact C2].
  intros t Ht. destruct (C1 t Ht) as [D1 D2]. split; [exact D1|]. intros c. rewrite D2. destruct (is_zero total); [reflexivity|]. f_equal. exact (G (label_at t c)).
Qed.
Print Assumptions C72_ctc_posteriors.
(** The same automaton in [FastViterbiOp]: the labels are an alignment of the targets, and no alignment is better. *)
Theorem C72_ctc_viterbi : forall V (ltb : V -> V -> bool) add bot zero, score_laws ltb add bot -> (forall v, add v zero = v) ->
  forall rows n_time lens blank f, Forall (fun r => length r = n_time) rows -> get_ctc_fsa rows n_time lens blank = Ok f ->
  forall n_frames seqs am torn out, map snd seqs = f_start_end f ->
  fast_viterbi ltb add bot zero n_frames seqs (map (fun e => (e, zero)) (f_edges f)) am torn out ->
  forall b row len n q, nth_error rows b = Some row -> nth_error lens b = Some len -> Forall (fun x => x <> blank) (firstn len row) ->
  nth_error seqs b = Some (n, q) -> n <= n_frames ->
  exists xs v, nth_error out b = Some (xs ++ repeat 0%Z (n_frames - n), v) /\ length xs = n /\
    (forall ys, length ys = n -> collapse blank ys = firstn len row -> not_above ltb (string_score add am b 0 zero ys) v) /\
    (ltb bot v = true -> collapse blank xs = firstn len row /\ string_score add am b 0 zero xs = v).
Proof.
  intros V ltb add bot zero L HZ rows n_time lens blank f Hr Hf n_frames seqs am torn out Hse H b row len n [s s'] Hrow Hlen Hnb Hb Hn.
  destruct (ctc_facts _ _ _ _ _ Hr Hf) as [HSE HE]. pose proof (C58_separate _ _ _ _ _ Hr Hf) as HS. destruct (C58_ctc_language _ _ _ _ _ Hr Hf) as [HL HP].
  pose proof (separate_batch f (fun _ => zero) HS HSE) as HB. cbv beta in HB. assert (HB' := HB). rewrite <- Hse in HB' at 2. destruct (C70_viterbi _ _ _ _ _ L _ _ _ _ _ _ _ HB' H) as [_ C].
  destruct (C b n s s' Hb Hn) as (xs&v&E1&E2&U&A). exists xs, v. split; [exact E1|]. split; [exact E2|]. clear C.
  assert (Hb' : nth_error (f_start_end f) b = Some (s, s')) by (rewrite <- Hse, nth_error_map, Hb; reflexivity).
  assert (HO : forall e, In e (f_edges f) -> owner_of (f_start_end f) (e_from e) = e_seq e /\ owner_of (f_start_end f) (e_to e) = e_seq e).
  { intros e He. apply (bo_edges _ _ _ HB e zero). now apply (in_map (fun e => (e, zero))). }
  assert (HC : forall ys, count_paths (edges_of f b) s ys s' = exactly (list_eqb (firstn len row) (collapse blank ys))).
  { intros ys. specialize (HP b row len Hrow Hlen Hnb ys). unfold paths in HP. now rewrite Hb' in HP. }
  assert (HW : forall p, (forall ew, In ew p -> snd ew = zero /\ e_seq (fst ew) = b) -> forall t u, path_score add am t u p = string_score add am b t u (labels p)).
  { induction p as [|[e w] p IH]; intros Hp t u; [reflexivity|]. cbn [path_score labels map string_score fst]. destruct (Hp _ (or_introl eq_refl)) as [W1 W2]. cbn [fst snd] in W1, W2. rewrite W1, W2, HZ. apply IH. intros ew Hew. apply Hp. now right. }
  split.
  - intros ys Hy Hc. destruct (counted_path zero (f_edges f) b s' ys s) as (p&P1&P2&P3).
    { unfold edges_of in HC. rewrite HC. rewrite (proj2 (list_eqb_spec _ _) (eq_sym Hc)). discriminate. }
    rewrite <- P2, <- HW by (intros ew Hew; destruct (P3 ew Hew); tauto). apply U. split; [rewrite <- Hy, <- P2; unfold labels; now rewrite map_length|]. split; [|exact P1].
    intros [e w] Hew. destruct (P3 _ Hew) as (Q1&Q2&_). cbn in Q1, Q2. subst w. now apply (in_map (fun e => (e, zero))).
  - intros Hv. destruct (A Hv) as (p&(P1&P2&P3)&P4&P5). assert (Q : forall ew, In ew p -> In (fst ew) (f_edges f) /\ snd ew = zero).
    { intros ew Hew. apply P2 in Hew. apply in_map_iff in Hew. destruct Hew as (e&<-&He). auto. }
    split.
    + pose proof (path_counted (f_edges f) (owner_of (f_start_end f)) b s' p HO s (proj1 (bo_start _ _ _ HB b s s' Hb')) (fun ew h => proj1 (Q ew h)) P3) as X. unfold edges_of in HC. rewrite HC, P4 in X.
      destruct (list_eqb _ _) eqn:E; [|now cbn in X]. symmetry. now apply list_eqb_spec.
    + rewrite <- P5, <- P4. symmetry. apply HW. assert (G : forall (p : list (edge * V)) s, owner_of (f_start_end f) s = b -> (forall ew, In ew p -> In (fst ew) (f_edges f)) -> connects s p s' = true -> forall ew, In ew p -> e_seq (fst ew) = b).
      { clear - HO. induction p as [|[e w] p IH]; intros s Hs Hp Hc ew Hew; [destruct Hew|]. cbn [connects fst] in Hc. apply andb_true_iff in Hc. destruct Hc as [H1 H2]. apply Nat.eqb_eq in H1.
        destruct (HO e (Hp _ (or_introl eq_refl))) as [O1 O2]. destruct Hew as [<-|Hew]; [cbn; congruence|]. apply (IH (e_to e) ltac:(congruence) (fun x h => Hp x (or_intror h)) H2 ew Hew). }
      intros ew Hew. split; [apply Q, Hew|]. exact (G p s (proj1 (bo_start _ _ _ HB b s s' Hb')) (fun x h => proj1 (Q x h)) P3 ew Hew).
Qed.
Print Assumptions C72_ctc_viterbi.
(** Targets 1 1 and 2 with blank 0, four and three frames. *)
Example C72_ctc_run : exists f out sums, get_ctc_fsa [[1; 1]; [2; 9]]%Z 2 [2; 1] 0%Z = Ok f
  /\ fast_baum_welch n_add n_mul n_quot n_zero n_one n_is_zero 4 (f_start_end f) (map (fun e => (e, n_one)) (f_edges f)) (fun t b c => nn 1 2) (fun t b => t <? 4 - b) out sums
  /\ proj1_sig (sums 0 0) = Q2Qc (5 # 16) /\ proj1_sig (out (0, 0, 0%Z)) = Q2Qc (1 # 5) /\ proj1_sig (out (2, 0, 1%Z)) = Q2Qc (2 # 5) /\ proj1_sig (sums 2 1) = Q2Qc (6 # 8).
Proof.
  eexists. destruct (C71_total _ n_add n_mul n_quot n_zero n_one n_is_zero 4 (f_start_end (match get_ctc_fsa [[1; 1]; [2; 9]]%Z 2 [2; 1] 0%Z with Ok f => f | _ => {| f_edges := []; f_start_end := [] |} end))
    (map (fun e => (e, n_one)) (f_edges (match get_ctc_fsa [[1; 1]; [2; 9]]%Z 2 [2; 1] 0%Z with Ok f => f | _ => {| f_edges := []; f_start_end := [] |} end))) (fun t b c => nn 1 2) (fun t b => t <? 4 - b)) as (out&sums&H).
  exists out, sums. split; [reflexivity|]. split; [exact H|].
  assert (HF : get_ctc_fsa [[1; 1]; [2; 9]]%Z 2 [2; 1] 0%Z = Ok (match get_ctc_fsa [[1; 1]; [2; 9]]%Z 2 [2; 1] 0%Z with Ok f => f | _ => {| f_edges := []; f_start_end := [] |} end)) by reflexivity.
  assert (HR : Forall (fun r : list Z => length r = 2) [[1; 1]; [2; 9]]%Z) by (repeat constructor).
  destruct (C72_ctc_posteriors _ _ _ _ _ _ _ n_laws _ _ _ _ _ HR HF _ _ _ _ _ H 0 [1; 1]%Z 2 4 [0; 1]%Z eq_refl eq_refl ltac:(repeat constructor; discriminate) ltac:(lia) ltac:(reflexivity) ltac:(repeat constructor; cbn; lia) ltac:(cbn; lia)) as [P1 _].
  destruct (C72_ctc_posteriors _ _ _ _ _ _ _ n_laws _ _ _ _ _ HR HF _ _ _ _ _ H 1 [2; 9]%Z 1 3 [0; 2]%Z eq_refl eq_refl ltac:(repeat constructor; discriminate) ltac:(lia) ltac:(reflexivity) ltac:(repeat constructor; cbn; lia) ltac:(cbn; lia)) as [P2 _].
  destruct (P1 0 ltac:(lia)) as [E1 E2]. destruct (P1 2 ltac:(lia)) as [_ E3]. destruct (P2 2 ltac:(lia)) as [E4 _]. rewrite E1, E2, E3, E4. clear.
  repeat split; apply Qc_is_canon; vm_compute; reflexivity.
Qed.
