(** Proofs for C72: the kernels on the automata of [get_ctc_fsa]. *)
From Verif Require Import Base ListLemmas FsaModel FsaSpec FsaProofs BwModel BwSpec BwConcProofs BwViterbiProofs BwProofs.
Local Open Scope nat_scope.

(* ---------- separate automata ---------- *)
Definition owner_of (se : list (nat * nat)) (s : nat) : nat := length (filter (fun q => fst q <=? s) se) - 1.
Lemma owner_range se : (forall b s t s' t', nth_error se b = Some (s, t) -> nth_error se (S b) = Some (s', t') -> s <= t < s') ->
  forall b s t x, nth_error se b = Some (s, t) -> s <= x <= t -> owner_of se x = b.
Proof.
  intros H. assert (G : forall d b s t s' t', nth_error se b = Some (s, t) -> nth_error se (S (b + d)) = Some (s', t') -> s <= t < s').
  { induction d as [|d IH]; intros b s t s' t' H1 H2; [rewrite Nat.add_0_r in H2; exact (H _ _ _ _ _ H1 H2)|].
    destruct (nth_error se (S (b + d))) as [[u v]|] eqn:E.
    - specialize (IH b s t u v H1 E). replace (b + S d) with (S (b + d)) in H2 by lia. destruct (H _ _ _ _ _ E H2). lia.
    - apply nth_error_None in E. assert (nth_error se (S (b + S d)) <> None) as X by congruence. apply nth_error_Some in X. lia. }
  intros b s t x Hb Hx. unfold owner_of. destruct (nth_error_split se b Hb) as (l1&l2&El&<-). rewrite El, filter_app. cbn [filter fst]. destruct (Nat.leb_spec s x); [|lia].
  rewrite filter_all.
  - replace (filter _ l2) with (@nil (nat * nat)); [rewrite app_length; cbn [length]; lia|]. symmetry. destruct (filter (fun q => fst q <=? x) l2) as [|[u v] r] eqn:E; [reflexivity|exfalso].
    assert (Hin : In (u, v) (filter (fun q => fst q <=? x) l2)) by (rewrite E; now left). apply filter_In in Hin. destruct Hin as [Hin Hlt]. apply Nat.leb_le in Hlt. cbn [fst] in Hlt.
    apply In_nth_error in Hin. destruct Hin as (j&Hj). assert (Hj' : nth_error se (S (length l1 + j)) = Some (u, v)).
    { rewrite El, nth_error_app2 by lia. replace (S (length l1 + j) - length l1) with (S j) by lia. exact Hj. }
    pose proof (G j _ _ _ _ _ Hb Hj'). lia.
  - intros [u v] Hin. apply In_nth_error in Hin. destruct Hin as (j&Hj). cbn [fst]. apply Nat.leb_le. assert (Hlt : j < length l1) by (apply nth_error_Some; congruence).
    assert (Hj' : nth_error se j = Some (u, v)) by (rewrite El, nth_error_app1 by exact Hlt; exact Hj).
    assert (Hb' : nth_error se (S (j + (length l1 - S j))) = Some (s, t)) by (replace (S (j + (length l1 - S j))) with (length l1) by lia; exact Hb). pose proof (G _ _ _ _ _ _ Hj' Hb'). lia.
Qed.
Lemma separate_batch {W} f (w : edge -> W) : separate f -> (forall b s t, nth_error (f_start_end f) b = Some (s, t) -> s <= t) ->
  batch_of (owner_of (f_start_end f)) (f_start_end f) (map (fun e => (e, w e)) (f_edges f)).
Proof.
  intros [H1 H2] H3. split.
  - intros e v Hin. apply in_map_iff in Hin. destruct Hin as (e'&E&Hin). injection E as -> _. destruct (H1 e Hin) as (s&t&Hb&R1&R2). split; eapply owner_range; eauto.
  - intros b s s' Hb. pose proof (H3 _ _ _ Hb). split; eapply owner_range; eauto.
Qed.
Lemma blocks_emit blank b ts : forall s e, In e (blocks blank b s ts) -> e_emit e = blank \/ In (e_emit e) ts.
Proof.
  induction ts as [|l ts IH]; intros s e H; [destruct H|]. cbn [blocks] in H. apply in_app_or in H. destruct H as [H|H]; [|destruct (IH _ _ H); [auto|right; now right]].
  unfold block in H. destruct ts as [|t ts'].
  - cbn in H. repeat (destruct H as [<- |H]; [cbn; auto|]). destruct H.
  - apply in_app_or in H. destruct H as [H|H]; [cbn in H; repeat (destruct H as [<- |H]; [cbn; auto|]); destruct H|].
    apply in_app_or in H. destruct H as [H|H]; [|cbn in H; repeat (destruct H as [<- |H]; [cbn; auto|]); destruct H].
    destruct (l =? t)%Z; [destruct H|]. destruct H as [<- |H]; [cbn; auto|]. destruct ts'; [|destruct H]. destruct H as [<- |H]; [cbn; auto|destruct H].
Qed.
Lemma ctc_facts rows n_time lens blank f : Forall (fun r => length r = n_time) rows -> get_ctc_fsa rows n_time lens blank = Ok f ->
  (forall b s t, nth_error (f_start_end f) b = Some (s, t) -> s <= t)
  /\ forall k row len, nth_error rows k = Some row -> nth_error lens k = Some len -> forall e, In e (edges_of f k) -> e_emit e = blank \/ In (e_emit e) (firstn len row).
Proof.
  intros Hr H. unfold get_ctc_fsa in H. apply bind_Ok in H. destruct H as (u & Ha & H). apply assert_Ok in Ha. apply Nat.eqb_eq in Ha.
  destruct (ctc_laid _ _ _ _ _ _ _ Hr Ha H) as (own & L1 & L2 & L3). split; [intros b s t Hb; pose proof (laid_start _ _ _ _ _ L1 _ _ _ Hb); lia|].
  intros k row len E1 E2 e He. destruct (L3 k row len E1 E2) as (s & F1 & F2). assert (Hk : (k < length (f_start_end f))%nat) by (apply nth_error_Some; rewrite F1; discriminate).
  pose proof (laid_own _ _ _ _ _ L1 k Hk) as F3. rewrite F2 in F3. injection F3 as F3. unfold edges_of in He. fold (seq_edges (f_edges f) k) in He. cbn [Nat.add] in F3. rewrite <- F3 in He.
  destruct He as [<-|He]; [now left|]. eapply blocks_emit, He.
Qed.

(* ---------- paths and strings ---------- *)
Section Num.
Context {T : Type} (add mul quot : T -> T -> T) (zero one : T) (is_zero : T -> bool).
Hypothesis N : number_laws add mul quot zero one is_zero.
Notation sum := (sum_over add zero).
Notation ind := (BwProofs.ind zero).
Context (am : nat -> nat -> Z -> T).
Fixpoint times (k : nat) (v : T) : T := match k with 0 => zero | S k' => add v (times k' v) end.
Lemma times_add j k v : times (j + k) v = add (times j v) (times k v).
Proof. induction j as [|j IH]; cbn [times Nat.add]; [now rewrite (add_zero_l _ _ _ _ _ _ N)|]. now rewrite IH, (add_a _ _ _ _ _ _ N). Qed.
Lemma times_total {X} (l : list X) g v : times (total (map g l)) v = sum l (fun x => times (g x) v).
Proof. induction l as [|x l IH]; [reflexivity|]. cbn [map total fold_right]. rewrite times_add. unfold total in IH. now rewrite IH. Qed.
Lemma times_mul k a v : times k (mul a v) = mul a (times k v).
Proof. induction k as [|k IH]; cbn [times]; [now rewrite (mul_zero_r _ _ _ _ _ _ N)|]. now rewrite IH, (nl_distr _ _ _ _ _ _ N). Qed.
Context (edges : list edge) (owner : nat -> nat) (b s1 : nat) (al : list Z).
Hypothesis HO : forall e, In e edges -> owner (e_from e) = e_seq e /\ owner (e_to e) = e_seq e.
Hypothesis Hal : NoDup al.
Notation es := (filter (fun e => e_seq e =? b) edges).
Hypothesis Hem : forall e, In e es -> In (e_emit e) al.
Notation wedges := (map (fun e => (e, one)) edges).
Lemma pick_one {X} (eqd : forall x y : X, {x = y} + {x <> y}) (l : list X) a (g : X -> T) : NoDup l -> In a l -> sum l (fun x => ind (if eqd a x then true else false) (g x)) = g a.
Proof.
  intros HN Ha. induction l as [|x l IH]; [destruct Ha|]. inversion HN as [|? ? Hx HN']; subst. rewrite sum_cons. destruct (eqd a x) as [->|Hne].
  - cbn [BwProofs.ind]. rewrite (sum_zero _ _ _ _ _ _ N); [apply (add_zero_r _ _ _ _ _ _ N)|]. intros y Hy. destruct (eqd x y); [now subst|reflexivity].
  - cbn [BwProofs.ind]. rewrite (add_zero_l _ _ _ _ _ _ N). apply IH; [exact HN'|]. destruct Ha; [congruence|assumption].
Qed.
Lemma strings_sum n : forall s t (P : list Z -> bool), owner s = b ->
  sum (tuples wedges n) (fun p => ind (connects s p s1 && P (labels p)) (path_weight mul one am t p))
  = sum (tuples al n) (fun xs => ind (P xs) (times (count_paths es s xs s1) (string_weight mul one am b t xs))).
Proof.
  induction n as [|n IH]; intros s t P Hs.
  - cbn [tuples]. rewrite !(sum_one _ _ _ _ _ _ N). cbn [connects labels map path_weight count_paths string_weight]. destruct (s =? s1), (P []); cbn [andb BwProofs.ind times]; [symmetry; apply (add_zero_r _ _ _ _ _ _ N)| | |]; reflexivity.
  - rewrite !(sum_tuples_S _ _ _ _ _ _ N), sum_map.
    transitivity (sum edges (fun e => ind ((e_from e =? s) && (e_seq e =? b)) (mul (am t b (e_emit e)) (sum (tuples al n) (fun xs => ind (P (e_emit e :: xs)) (times (count_paths es (e_to e) xs s1) (string_weight mul one am b (S t) xs))))))).
    + apply (sum_ext _ _ _). intros e He. destruct (HO e He) as [O1 O2]. destruct (Nat.eqb_spec (e_from e) s) as [Es|Es].
      * assert (Eb : e_seq e = b) by congruence. rewrite Eb, Nat.eqb_refl. cbn [andb BwProofs.ind]. rewrite <- (IH (e_to e) (S t) (fun xs => P (e_emit e :: xs))) by congruence. rewrite (sum_mul_l _ _ _ _ _ _ N). apply sum_ext. intros p _.
        cbn [connects labels map fst path_weight]. rewrite Es, Nat.eqb_refl. cbn [andb]. rewrite (ind_mul_l _ _ _ _ _ _ N). f_equal. rewrite (mul_one_l _ _ _ _ _ _ N), Eb. reflexivity.
      * cbn [andb BwProofs.ind]. apply (sum_zero _ _ _ _ _ _ N). intros p _. cbn [connects fst]. destruct (Nat.eqb_spec (e_from e) s); [contradiction|reflexivity].
    + transitivity (sum al (fun x => sum (tuples al n) (fun xs => sum es (fun e => ind (e_from e =? s) (ind (if Z.eq_dec (e_emit e) x then true else false) (ind (P (x :: xs)) (times (count_paths es (e_to e) xs s1) (mul (am t b x) (string_weight mul one am b (S t) xs))))))))).
      * transitivity (sum al (fun x => sum es (fun e => sum (tuples al n) (fun xs => ind (e_from e =? s) (ind (if Z.eq_dec (e_emit e) x then true else false) (ind (P (x :: xs)) (times (count_paths es (e_to e) xs s1) (mul (am t b x) (string_weight mul one am b (S t) xs))))))))).
        2:{ apply sum_ext. intros x _. apply (sum_swap _ _ _ _ _ _ N). }
        rewrite (sum_swap _ _ _ _ _ _ N), (sum_filter _ _ _ _ _ _ N). apply sum_ext. intros e He. destruct (Nat.eqb_spec (e_seq e) b) as [Eb|]; [|now rewrite andb_false_r]. rewrite andb_true_r.
        rewrite (sum_swap _ _ _ _ _ _ N). destruct (e_from e =? s); cbn [BwProofs.ind]; [|symmetry; apply (sum_zero _ _ _ _ _ _ N); intros xs _; now apply (sum_zero _ _ _ _ _ _ N)].
        rewrite (sum_mul_l _ _ _ _ _ _ N). apply sum_ext. intros xs _.
        rewrite (pick_one Z.eq_dec al (e_emit e) (fun x => ind (P (x :: xs)) (times (count_paths es (e_to e) xs s1) (mul (am t b x) (string_weight mul one am b (S t) xs)))) Hal).
        2:{ apply Hem. apply filter_In. split; [exact He|now apply Nat.eqb_eq]. }
        rewrite (ind_mul_l _ _ _ _ _ _ N), times_mul. reflexivity.
      * apply sum_ext. intros x _. apply sum_ext. intros xs _. cbn [string_weight count_paths]. rewrite times_total, (sum_filter _ _ _ _ _ _ N (fun e : edge => (e_from e =? s) && (e_emit e =? x)%Z)). destruct (P (x :: xs)).
        -- cbn [BwProofs.ind]. apply sum_ext. intros e _. destruct (e_from e =? s); cbn [andb BwProofs.ind]; [|reflexivity]. destruct (Z.eq_dec (e_emit e) x) as [E|E]; [rewrite <- E, Z.eqb_refl; reflexivity|].
           destruct (Z.eqb_spec (e_emit e) x); [contradiction|reflexivity].
        -- cbn [BwProofs.ind]. apply (sum_zero _ _ _ _ _ _ N). intros e _. destruct (e_from e =? s); [|reflexivity]. now destruct (Z.eq_dec (e_emit e) x).
Qed.
End Num.

(* ---------- paths and counts ---------- *)
Lemma path_counted {W} (edges : list edge) (owner : nat -> nat) b s1 (p : list (edge * W)) :
  (forall e, In e edges -> owner (e_from e) = e_seq e /\ owner (e_to e) = e_seq e) ->
  forall s, owner s = b -> (forall ew, In ew p -> In (fst ew) edges) -> connects s p s1 = true -> count_paths (filter (fun e => e_seq e =? b) edges) s (labels p) s1 <> 0.
Proof.
  intros HO. induction p as [|[e w] p IH]; intros s Hs Hp H; cbn [connects labels map count_paths fst] in *; [rewrite H; discriminate|]. apply andb_true_iff in H. destruct H as [H1 H2]. apply Nat.eqb_eq in H1.
  pose proof (Hp _ (or_introl eq_refl)) as He. cbn [fst] in He. destruct (HO e He) as [O1 O2]. specialize (IH (e_to e) ltac:(congruence) (fun x h => Hp x (or_intror h)) H2).
  assert (Hin : In e (filter (fun e0 => (e_from e0 =? s) && (e_emit e0 =? e_emit e)%Z) (filter (fun e0 => e_seq e0 =? b) edges))).
  { apply filter_In. split; [apply filter_In; split; [exact He|apply Nat.eqb_eq; congruence]|]. rewrite H1, Nat.eqb_refl, Z.eqb_refl. reflexivity. }
  revert Hin. generalize (filter (fun e0 => (e_from e0 =? s) && (e_emit e0 =? e_emit e)%Z) (filter (fun e0 => e_seq e0 =? b) edges)) as l. induction l as [|a l IHl]; [intros []|]. cbn [map total fold_right].
  intros [->|Hin]; [fold (labels p); lia|]. specialize (IHl Hin). unfold total in IHl. lia.
Qed.
Lemma counted_path {W} (w : W) (edges : list edge) b s1 xs : forall s, count_paths (filter (fun e => e_seq e =? b) edges) s xs s1 <> 0 ->
  exists p, connects s p s1 = true /\ labels p = xs /\ (forall ew, In ew p -> In (fst ew) edges /\ snd ew = w /\ e_seq (fst ew) = b).
Proof.
  induction xs as [|x xs IH]; intros s H; cbn [count_paths] in H.
  - exists []. split; [cbn; now destruct (s =? s1)|]. split; [reflexivity|intros ? []].
  - assert (E : exists e, In e (filter (fun e0 => (e_from e0 =? s) && (e_emit e0 =? x)%Z) (filter (fun e0 => e_seq e0 =? b) edges)) /\ count_paths (filter (fun e => e_seq e =? b) edges) (e_to e) xs s1 <> 0).
    { revert H. generalize (filter (fun e0 => (e_from e0 =? s) && (e_emit e0 =? x)%Z) (filter (fun e0 => e_seq e0 =? b) edges)) as l. induction l as [|a l IHl]; intros H; [now cbn in H|]. cbn [map total fold_right] in H.
      destruct (Nat.eq_dec (count_paths (filter (fun e => e_seq e =? b) edges) (e_to a) xs s1) 0) as [E0|E0]; [|exists a; split; [now left|exact E0]]. rewrite E0 in H. destruct (IHl H) as (e&He&Hc). exists e. split; [now right|exact Hc]. }
    destruct E as (e&He&Hc). destruct (IH _ Hc) as (p&C1&C2&C3). apply filter_In in He. destruct He as [He E]. apply filter_In in He. destruct He as [He Eb]. apply Nat.eqb_eq in Eb.
    apply andb_true_iff in E. destruct E as [E1 E2]. apply Z.eqb_eq in E2. exists ((e, w) :: p). split; [cbn [connects fst]; now rewrite E1, C1|]. split; [cbn; now rewrite E2, <- C2|].
    intros ew [<-|Hin]; [auto|apply C3, Hin].
Qed.
