(** Proofs for C67 and C68: read-ahead, exceptions, and the dataset. *)
From Coq Require Import String QArith Sorted.
From Verif Require Import Base PyDict PySort PySortProofs ListLemmas PostprocModel PostprocSpec PostprocProofs.
Local Open Scope string_scope.
Local Open Scope nat_scope.
Local Open Scope list_scope.
Local Notation length := List.length.

Lemma skipn_nth {X} (l : list X) : forall i x, nth_error l i = Some x -> skipn i l = x :: skipn (S i) l.
Proof. induction l as [|y l IH]; intros [|i] x H; try discriminate; [now injection H as ->|]. exact (IH i x H). Qed.

Section Lap.
Context {A : Type}.
Notation tdict := (tdict A).
Notation iterator := (iterator A).
Context (n : nat) (seq_len : @dict string A -> res nat).
Hypothesis Hn : 0 < n.
Notation usable := (usable seq_len).

Lemma lap_length xs : Forall usable xs -> forall down, length (lap n seq_len down xs) = length xs.
Proof.
  intros HU down. destruct (lap_ordered n seq_len Hn (length xs) xs down (Nat.le_refl _) HU) as [E _]. apply (f_equal (@length _)) in E. now rewrite !map_length in E.
Qed.

(* ---------- read-ahead ---------- *)
Section Count.
Context {D : Type} (nx : iterator D) (total : nat).
Lemma counted_yields d xs c : yields nx d xs -> yields (counted nx) (d, c) xs.
Proof.
  intros H. apply (yields_inv _ (fun (s : D * nat) l => yields nx (fst s) l)); [| |exact H].
  - intros [d0 c0] x l Hl. apply yields_cons in Hl. destruct Hl as (d'&E&Hl). cbn in E, Hl. exists (d', S c0). cbn. rewrite E. auto.
  - intros [d0 c0] Hl. apply yields_nil in Hl. destruct Hl as (d'&E&Hl). cbn in E, Hl. exists (d', c0). cbn. rewrite E. auto.
Qed.
Definition balanced (s : D * nat) : Prop := exists rest, yields (counted nx) s rest /\ snd s + length rest = total.
Lemma balanced_step s : balanced s -> balanced (fst (counted nx s)).
Proof.
  intros (rest&HY&HL). destruct s as [d c]. destruct rest as [|x rest].
  - apply yields_nil in HY. destruct HY as ([d' c']&E&HY). rewrite E. exists []. split; [exact HY|]. cbn in *. destruct (nx d) as [d1 o]. injection E as _ <- ->. exact HL.
  - apply yields_cons in HY. destruct HY as ([d' c']&E&HY). rewrite E. exists rest. split; [exact HY|]. cbn in *. destruct (nx d) as [d1 o]. injection E as _ <- ->. lia.
Qed.
Lemma balanced_islice : forall k s, balanced s -> balanced (fst (islice (counted nx) k s)).
Proof.
  induction k as [|k IH]; intros s HB; [exact HB|]. cbn [islice]. pose proof (balanced_step s HB) as HB'. destruct (counted nx s) as [s' o]. cbn [fst] in HB'.
  destruct o; try exact HB'. specialize (IH s' HB'). destruct (islice (counted nx) k s'). exact IH.
Qed.
Lemma balanced_next s : balanced (snd s) -> balanced (snd (fst (laplace_next n seq_len _ (counted nx) s))).
Proof.
  destruct s as [s d]. cbn [snd]. intros HB. unfold laplace_next. destruct s as [|todo size nb ended down|].
  - pose proof (balanced_islice n d HB) as HB'. destruct (islice (counted nx) n d) as [d' [buf|e]]; [|exact HB']. destruct (start_bin _ _ _ _). exact HB'.
  - destruct ended; [destruct (go_on _ _ _ _ _ _ _); exact HB|]. pose proof (balanced_step d HB) as HB'. destruct (counted nx d) as [d' o]. cbn [fst] in HB'.
    destruct o; try (destruct (go_on _ _ _ _ _ _ _)); exact HB'.
  - exact HB.
Qed.
End Count.
Lemma next_not_done {D} (nx : iterator D) s s' y : laplace_next n seq_len D nx s = (s', Yield y) -> fst s' <> LDone.
Proof.
  assert (H1 : forall buf e d s0 y0, start_bin seq_len buf e d = (s0, Yield y0) -> s0 <> LDone).
  { unfold start_bin, end_check. intros buf e d s0 y0 H. destruct (sort_buffer _ _ _) as [[|? ?]|]; [destruct (_ && _); discriminate| |discriminate]. injection H as <- _. discriminate. }
  assert (H2 : forall todo size nb e d s0 y0, go_on seq_len n todo size nb e d = (s0, Yield y0) -> s0 <> LDone).
  { unfold go_on, end_check. intros todo size nb e d s0 y0 H. destruct todo as [|t todo]; [destruct (size <? n); [destruct (_ && _); discriminate|now apply H1 in H]|]. injection H as <- _. discriminate. }
  destruct s as [s d]. cbn [laplace_next]. intros H. destruct s as [|todo size nb ended down|]; [| |discriminate].
  - destruct (islice nx n d) as [d' [buf|e]]; [|discriminate]. destruct (start_bin _ _ _ _) eqn:E. injection H as <- ->. now apply H1 in E.
  - destruct ended; [destruct (go_on _ _ _ _ _ _ _) eqn:E; injection H as <- ->; now apply H2 in E|]. destruct (nx d) as [d' [t| |e]]; [| |discriminate];
    (destruct (go_on _ _ _ _ _ _ _) eqn:E; injection H as <- ->; now apply H2 in E).
Qed.
Lemma laplace_count {D} (nx : iterator D) d xs : yields nx d xs -> Forall usable xs -> forall j, j < length xs ->
  snd (snd (state_after (laplace_next n seq_len _ (counted nx)) (S j) (LInit, (d, 0)))) = Nat.min (length xs) (n + j).
Proof.
  intros HY HU j Hj. assert (Hne : xs <> []) by (intros ->; cbn in Hj; lia). pose proof (counted_yields nx d xs 0 HY) as HC.
  set (lnx := laplace_next n seq_len _ (counted nx)).
  assert (HB : forall k, balanced nx (length xs) (snd (state_after lnx k (LInit, (d, 0))))).
  { intros k. unfold state_after. induction k as [|k IH]; [exists xs; split; [exact HC|reflexivity]|]. cbn [Nat.iter nat_rect]. now apply balanced_next. }
  assert (HL : forall k, k < length xs -> exists ys, linv n seq_len (counted nx) (state_after lnx (S k) (LInit, (d, 0))) ys /\ length ys + S k = length xs /\ fst (state_after lnx (S k) (LInit, (d, 0))) <> LDone).
  { destruct (laplace_first n seq_len Hn (counted nx) (d, 0) xs HC HU Hne) as (y&ys&s&E&E1&HI).
    pose proof (lap_length xs HU false) as LL. rewrite E in LL. cbn [length] in LL.
    induction k as [|k IH]; intros Hk.
    - exists ys. unfold state_after. cbn [Nat.iter nat_rect]. unfold lnx. rewrite E1. split; [exact HI|]. split; [lia|]. exact (next_not_done _ _ _ _ E1).
    - destruct (IH ltac:(lia)) as (zs&HI'&Lz&_). destruct zs as [|z zs]; [cbn in Lz; lia|]. exists zs. cbn [length] in Lz.
      destruct (laplace_step n seq_len Hn (counted nx) _ _ HI') as (s'&E'&HI''). assert (EE : state_after lnx (S (S k)) (LInit, (d, 0)) = s').
      { change (fst (lnx (state_after lnx (S k) (LInit, (d, 0)))) = s'). unfold lnx at 1. now rewrite E'. }
      rewrite EE. split; [exact HI''|]. split; [lia|]. exact (next_not_done _ _ _ _ E'). }
  destruct (HL j Hj) as (ys&HI&Ly&ND). specialize (HB (S j)). destruct HB as (rest&HR&HT). revert HI HR HT ND. generalize (state_after lnx (S j) (LInit, (d, 0))). intros s HI HR HT ND.
  destruct HI as [d0|todo size nb ended down d0 rest' HY' HU' Hs Hsm Hl]; cbn [snd] in *.
  - now elim ND.
  - assert (rest = rest') by (eapply yields_fun; eauto). subst rest'. rewrite app_length, lap_length, app_length in Ly by exact HU'.
    destruct (Nat.eq_dec size n) as [->|Es].
    + destruct ended; [destruct Hl as [-> Hl]; cbn in *|]; lia.
    + destruct (Hsm ltac:(lia)) as [-> ->]. cbn in *. destruct ended; lia.
Qed.

(* ---------- exceptions ---------- *)
Lemma breaks_cons {D} (nx : iterator D) d x xs e : breaks nx d (x :: xs) e -> exists d', nx d = (d', Yield x) /\ breaks nx d' xs e.
Proof.
  intros [H1 H2]. pose proof (H1 0 x eq_refl) as H0. unfold result_of, state_after in H0. cbn in H0. destruct (nx d) as [d' o] eqn:E. cbn in H0. subst o.
  exists d'. split; [reflexivity|]. split.
  - intros j t Hj. specialize (H1 (S j) t Hj). rewrite result_S, E in H1. exact H1.
  - cbn [length] in H2. rewrite result_S, E in H2. exact H2.
Qed.
Lemma breaks_nil {D} (nx : iterator D) d e : breaks nx d [] e -> exists d', nx d = (d', Raise e).
Proof.
  intros [_ H]. unfold result_of, state_after in H. cbn in H. destruct (nx d) as [d' o]. cbn in H. subst o. eauto.
Qed.
Lemma islice_breaks {D} (nx : iterator D) e : forall k d xs, breaks nx d xs e ->
  (k <= length xs -> exists d', islice nx k d = (d', Ok (firstn k xs)) /\ breaks nx d' (skipn k xs) e)
  /\ (length xs < k -> exists d', islice nx k d = (d', Err e)).
Proof.
  induction k as [|k IH]; intros d xs H; [split; [intros _; exists d; split; [reflexivity|exact H]|lia]|]. cbn [islice]. destruct xs as [|x xs].
  - apply breaks_nil in H. destruct H as (d'&E). rewrite E. split; [cbn; lia|eauto].
  - apply breaks_cons in H. destruct H as (d'&E&H). rewrite E. destruct (IH _ _ H) as [I1 I2]. cbn [length]. split; intros Hk.
    + destruct (I1 ltac:(lia)) as (d''&E'&H'). rewrite E'. exists d''. split; [reflexivity|exact H'].
    + destruct (I2 ltac:(lia)) as (d''&E'). rewrite E'. eexists. reflexivity.
Qed.
Lemma laplace_breaks_run {D} (nx : iterator D) e : forall rest todo nb down d, breaks nx d rest e -> Forall usable (nb ++ rest) ->
  length nb + length todo + 1 = n ->
  (forall j, j < length rest -> exists t, result_of (laplace_next n seq_len D nx) (LYield todo n nb false down, d) j = Yield t)
  /\ result_of (laplace_next n seq_len D nx) (LYield todo n nb false down, d) (length rest) = Raise e.
Proof.
  induction rest as [|x rest IH]; intros todo nb down d HB HU HL.
  - split; [cbn; lia|]. apply breaks_nil in HB. destruct HB as (d'&E). unfold result_of, state_after. cbn. now rewrite E.
  - apply breaks_cons in HB. destruct HB as (d'&E&HB). assert (EA : nb ++ x :: rest = (nb ++ [x]) ++ rest) by (now rewrite <- app_assoc). rewrite EA in HU.
    assert (HS : exists t s', laplace_next n seq_len D nx (LYield todo n nb false down, d) = ((s', d'), Yield t)
      /\ exists todo' nb' down', s' = LYield todo' n nb' false down' /\ Forall usable (nb' ++ rest) /\ length nb' + length todo' + 1 = n).
    { cbn [laplace_next]. rewrite E. destruct todo as [|t todo]; cbn [go_on].
      - rewrite Nat.ltb_irrefl. apply Forall_app in HU. destruct HU as [HU1 HU2].
        destruct (start_bin_spec seq_len (nb ++ [x]) false (negb down) HU1 ltac:(destruct nb; discriminate)) as (t&todo&Es&Eb). rewrite Eb.
        pose proof (sorted_len seq_len _ (negb down) HU1) as L. rewrite Es in L. cbn [length] in L. assert (Ln : length (nb ++ [x]) = n) by (rewrite app_length; cbn in *; lia).
        rewrite Ln in *. eexists _, _. split; [reflexivity|]. exists todo, [], (negb down). split; [reflexivity|split; [exact HU2|cbn; lia]].
      - eexists _, _. split; [reflexivity|]. exists todo, (nb ++ [x]), down. split; [reflexivity|split; [exact HU|]]. rewrite app_length. cbn in *. lia. }
    destruct HS as (t&s'&ES&todo'&nb'&down'&->&HU'&HL'). destruct (IH todo' nb' down' d' HB HU' HL') as [I1 I2]. split.
    + intros [|j] Hj; [exists t; unfold result_of, state_after; cbn [Nat.iter nat_rect]; now rewrite ES|]. rewrite result_S, ES. cbn [fst]. apply I1. cbn in Hj. lia.
    + cbn [length]. rewrite result_S, ES. exact I2.
Qed.
Lemma laplace_breaks {D} (nx : iterator D) d xs e : breaks nx d xs e -> Forall usable xs ->
  exists j, j = S (length xs) - n /\ (forall i, i < j -> exists t, result_of (laplace_next n seq_len D nx) (LInit, d) i = Yield t)
    /\ result_of (laplace_next n seq_len D nx) (LInit, d) j = Raise e.
Proof.
  intros HB HU. eexists. split; [reflexivity|]. destruct (islice_breaks nx e n d xs HB) as [I1 I2]. destruct (Nat.le_gt_cases n (length xs)) as [Hc|Hc].
  - destruct (I1 Hc) as (d'&E&HB'). rewrite <- (firstn_skipn n xs) in HU. apply Forall_app in HU. destruct HU as [HU1 HU2].
    assert (L1 : length (firstn n xs) = n) by (rewrite firstn_length; lia).
    assert (ES : exists t todo, laplace_next n seq_len D nx (LInit, d) = ((LYield todo n [] false false, d'), Yield t) /\ length todo + 1 = n).
    { cbn [laplace_next]. rewrite E. destruct (start_bin_spec seq_len (firstn n xs) false false HU1) as (t&todo&Es&Eb); [intros X; rewrite X in L1; cbn in L1; lia|].
      rewrite Eb, L1. pose proof (sorted_len seq_len _ false HU1) as L. rewrite Es, L1 in L. cbn [length] in L. eexists _, _. split; [reflexivity|lia]. }
    destruct ES as (t&todo&ES&Lt). destruct (laplace_breaks_run nx e (skipn n xs) todo [] false d' HB' HU2 ltac:(cbn; lia)) as [R1 R2].
    rewrite skipn_length in R1, R2. replace (S (length xs) - n) with (S (length xs - n)) by lia. split.
    + intros [|i] Hi; [exists t; unfold result_of, state_after; cbn [Nat.iter nat_rect]; now rewrite ES|]. rewrite result_S, ES. apply R1. lia.
    + rewrite result_S, ES. exact R2.
  - destruct (I2 Hc) as (d'&E). replace (S (length xs) - n) with 0 by lia. split; [lia|]. unfold result_of, state_after. cbn. now rewrite E.
Qed.
End Lap.

(* ---------- the dataset ---------- *)
Section Ds.
Context {A R : Type}.
Notation tdict := (tdict A).
Notation iterator := (iterator A).
Notation options := (options A R).
Definition frac_of (t : tdict) : option Q := match t_frac t with Some f => f | None => None end.

Lemma validate_yields (o : options) {D} (nx : iterator D) : forall d ts last, yields nx d ts ->
  Forall (fun t => o_check o t = Ok tt /\ t_frac t <> Some None) ts -> (0 <= last)%Q -> fracs_increase last (map frac_of ts) ->
  yields (validate_next (o_check o) nx) (last, true, d) ts.
Proof.
  intros d ts last HY HC HP HF.
  apply (yields_inv _ (fun (s : Q * bool * D) l => if snd (fst s) then yields nx (snd s) l /\ Forall (fun t => o_check o t = Ok tt /\ t_frac t <> Some None) l /\ (0 <= fst (fst s))%Q /\ fracs_increase (fst (fst s)) (map frac_of l) else l = []));
    [| |cbn; auto].
  - intros [[q [|]] d0] x l Hl; cbn [fst snd] in Hl; [|discriminate]. destruct Hl as (H1&H2&H3&H4). apply yields_cons in H1. destruct H1 as (d'&E&H1). inversion H2 as [|? ? [Hc Hf] H2']; subst.
    cbn [validate_next]. rewrite E. unfold validate_dict. cbn [map] in H4. unfold frac_of at 1 in H4. destruct (t_frac x) as [[q'|]|]; [|congruence|].
    + cbn [fracs_increase] in H4. destruct H4 as [[Hq1 Hq2] H4]. assert (E1 : Qle_bool 0 q' = true) by (apply Qle_bool_iff; now apply Qle_trans with q).
      apply Qle_bool_iff in Hq2 as E2. apply Qle_bool_iff in Hq1 as E3. rewrite E1, E2, E3. cbn [andb assert_ bind]. rewrite Hc. cbn [bind]. eexists. split; [reflexivity|]. cbn [fst snd].
      repeat split; auto. now apply Qle_trans with q.
    + cbn [bind]. rewrite Hc. cbn [bind]. eexists. split; [reflexivity|]. cbn [fst snd]. cbn [fracs_increase] in H4. auto.
  - intros [[q [|]] d0] Hl; cbn [fst snd] in Hl.
    + destruct Hl as (H1&_). apply yields_nil in H1. destruct H1 as (d'&E&_). cbn [validate_next]. rewrite E. eexists. split; [reflexivity|]. reflexivity.
    + cbn [validate_next]. eexists. split; [reflexivity|]. reflexivity.
Qed.

(** what the state looks like when the iterator gives [ts] *)
Record dinv (o : options) (ts : list tdict) (s : state o) : Prop := {
  di_count : st_count s <= length ts;
  di_prod : st_produced s = st_count s;
  di_num : match st_num_seqs s with Some n => n = length ts | None => True end;
  di_iter : yields (iter_next o (st_epoch s) (st_tags s)) (st_iter s) (skipn (st_count s) ts)
}.
Lemma collect_step_dinv (o : options) ts s : dinv o ts s -> exists s', dinv o ts s' /\
  match nth_error ts (st_count s) with
  | Some t => collect_step o s = (s', Yield t) /\ st_count s' = S (st_count s)
  | None => collect_step o s = (s', Stop) /\ st_count s' = st_count s
  end.
Proof.
  intros [Hc Hp Hn Hi]. unfold collect_step. destruct (nth_error ts (st_count s)) as [t|] eqn:E.
  - pose proof (skipn_nth _ _ _ E) as Es.
    assert (HL : st_count s < length ts) by (apply nth_error_Some; congruence).
    rewrite Es in Hi. apply yields_cons in Hi. destruct Hi as (it&Ei&Hi). rewrite Ei. eexists. split; [|split].
    2:{ f_equal. destruct (st_num_seqs s); [|reflexivity]. subst. rewrite Hp. destruct (Nat.leb_spec (S (st_count s)) (length ts)); [reflexivity|lia]. }
    2:reflexivity.
    constructor; cbn; auto; lia.
  - apply nth_error_None in E. rewrite skipn_all2 in Hi by exact E. apply yields_nil in Hi. destruct Hi as (it&Ei&Hi). rewrite Ei. eexists. split; [|split].
    2:{ f_equal. destruct (st_num_seqs s); [|reflexivity]. subst. rewrite Hp. replace (st_count s) with (length ts) by lia. now rewrite Nat.eqb_refl. }
    2:reflexivity.
    constructor; cbn; auto. rewrite skipn_all2 by exact E. exact Hi.
Qed.
Lemma collect_loop_dinv (o : options) ts (HT : Forall (fun t => t_frac t <> Some None) ts) i : forall gap s, dinv o ts s -> st_count s <= i -> gap = i - st_count s ->
  exists s', dinv o ts s' /\ st_count s' <= S i /\ collect_loop o s i gap = (s', Ok (option_map as_seq (nth_error ts i))).
Proof.
  induction gap as [|gap IH]; intros s HI Hc Hg.
  - assert (st_count s = i) by lia. cbn [collect_loop]. destruct (collect_step_dinv o ts s HI) as (s'&HI'&H'). subst i.
    destruct (nth_error ts (st_count s)) as [t|] eqn:E; destruct H' as [-> Ec].
    + rewrite Nat.leb_refl, Nat.eqb_refl. exists s'. split; [exact HI'|]. split; [lia|]. cbn [option_map]. unfold as_seq.
      apply nth_error_In in E. rewrite Forall_forall in HT. specialize (HT t E). destruct (t_frac t) as [[q|]|]; [reflexivity|congruence|reflexivity].
    + exists s'. split; [exact HI'|]. split; [lia|reflexivity].
  - cbn [collect_loop]. destruct (collect_step_dinv o ts s HI) as (s'&HI'&H'). destruct (nth_error ts (st_count s)) as [t|] eqn:E; destruct H' as [-> Ec].
    + destruct (Nat.leb_spec (st_count s) i); [|lia]. destruct (Nat.eqb_spec (st_count s) i); [lia|]. apply IH; [exact HI'|lia|lia].
    + exists s'. split; [exact HI'|]. split; [lia|]. apply nth_error_None in E. replace (nth_error ts i) with (@None tdict); [reflexivity|]. symmetry. apply nth_error_None. lia.
Qed.
Lemma collect_all_dinv (o : options) ts (HT : Forall (fun t => t_frac t <> Some None) ts) : forall idxs s lo, dinv o ts s -> st_count s <= lo -> increasing lo idxs ->
  snd (collect_all o s idxs) = right_results ts idxs.
Proof.
  induction idxs as [|i idxs IH]; intros s lo HI Hc Hinc; [reflexivity|]. cbn [increasing] in Hinc. destruct Hinc as [H1 H2]. cbn [collect_all].
  unfold collect_single_seq. destruct (collect_loop_dinv o ts HT i (i - st_count s) s HI ltac:(lia) eq_refl) as (s'&HI'&Hc'&E). rewrite E.
  specialize (IH s' (S i) HI' Hc' H2). destruct (collect_all o s' idxs) as [s'' rs]. cbn [snd] in *. rewrite IH. reflexivity.
Qed.
Lemma epoch_right (o : options) epoch seq_list ts idxs : 
  (seq_list = None \/ o_stream o = None) ->
  yields (m_next (stream_of o) _ (source_next (o_wrapped o epoch) (o_map_seq o) seq_list)) (m_start (stream_of o), (0, true, o_seed o epoch)) ts ->
  acceptable o ts -> (o_stream o = None \/ preserves_num_seqs o = true -> forall n, w_num_seqs (o_wrapped o epoch) = Some n -> n = length ts) ->
  increasing 0 idxs -> epoch_results o epoch seq_list idxs = Ok (right_results ts idxs).
Proof.
  intros Hs HY [HA HF] Hn Hinc. unfold epoch_results, init_seq_order.
  assert (E : match o_stream o, seq_list with Some _, Some _ => Err ValueError | _, _ => Ok tt end = Ok tt) by (destruct Hs as [->| ->]; [now destruct (o_stream o)|reflexivity]).
  rewrite E. cbn [bind]. f_equal. apply (collect_all_dinv o ts) with (lo := 0); [|constructor; cbn; auto; try lia|apply Nat.le_refl|exact Hinc].
  - apply Forall_forall. intros t Ht. rewrite Forall_forall in HA. now apply HA.
  - destruct (o_stream o); [destruct (preserves_num_seqs o) eqn:Ep; [|exact I]|]; (destruct (w_num_seqs (o_wrapped o epoch)); [|exact I]); apply Hn; auto.
  - apply validate_yields; auto. apply Qle_refl.
Qed.

(* ---------- the source ---------- *)
Lemma source_plain (w : wrapped A) tags (r : R) : yields (source_next w None tags) (0, true, r) (map in_dict (w_seqs w)).
Proof.
  apply (yields_inv _ (fun (s : @source R) l => let '(i, alive, _) := s in if alive then l = map in_dict (skipn i (w_seqs w)) else l = [])); [| |reflexivity].
  - intros [[i [|]] r0] x l Hl; [|discriminate]. cbn [source_next]. destruct (nth_error (w_seqs w) i) as [y|] eqn:E.
    + pose proof (skipn_nth _ _ _ E) as Es.
      rewrite Es in Hl. cbn [map] in Hl. injection Hl as -> ->. eexists. split; [reflexivity|]. reflexivity.
    + apply nth_error_None in E. rewrite skipn_all2 in Hl by exact E. discriminate.
  - intros [[i [|]] r0] Hl; cbn [source_next].
    + destruct (nth_error (w_seqs w) i) as [y|] eqn:E; [|eexists; split; reflexivity].
      exfalso. assert (HL : i < length (w_seqs w)) by (apply nth_error_Some; congruence). apply (f_equal (@length _)) in Hl. rewrite map_length, skipn_length in Hl. cbn in Hl. lia.
    + eexists. split; reflexivity.
Qed.
Lemma source_mapped (w : wrapped A) f tags (r : R) ts : mapped f r 0 (w_seqs w) ts ->
  match tags with None => True | Some l => forall i t, nth_error ts i = Some t -> nth_error l i = t_tag t end ->
  yields (source_next w (Some f) tags) (0, true, r) ts.
Proof.
  intros HM HT.
  apply (yields_inv _ (fun (s : @source R) l => let '(i, alive, r) := s in if alive then mapped f r i (skipn i (w_seqs w)) l /\ i <= length (w_seqs w) /\ (forall k, nth_error l k = nth_error ts (i + k)) else l = [])); [| |].
  - intros [[i [|]] r0] x l Hl; [|discriminate]. destruct Hl as (H1&H2&H3). inversion H1 as [|? ? y ys t r' ts' Hf Hm Ey]; subst.
    assert (E : nth_error (w_seqs w) i = Some y).
    { rewrite <- (firstn_skipn i (w_seqs w)), nth_error_app2; rewrite firstn_length, Nat.min_l by exact H2; [|lia]. rewrite Nat.sub_diag, <- H. reflexivity. }
    assert (Es : skipn (S i) (w_seqs w) = ys). { pose proof (skipn_nth _ _ _ E) as X. rewrite <- H in X. now injection X. }
    cbn [source_next]. rewrite E, Hf. cbv zeta.
    assert (HL : S i <= length (w_seqs w)) by (apply nth_error_Some; congruence).
    assert (HR : forall k, nth_error l k = nth_error ts (S i + k)) by (intros k; specialize (H3 (S k)); cbn [nth_error] in H3; rewrite H3; f_equal; lia).
    assert (EF : match t_frac t, snd y with None, Some q => Some (Some q) | c, _ => c end = match t_frac t with None => option_map Some (snd y) | Some c => Some c end) by (destruct (t_frac t); [reflexivity|now destruct (snd y)]).
    rewrite EF. specialize (H3 0). cbn [nth_error] in H3. rewrite Nat.add_0_r in H3.
    destruct tags as [tl|].
    + pose proof (HT i _ (eq_sym H3)) as Ht. cbn [t_tag] in Ht. unfold pyget. rewrite Ht. destruct (t_tag t) as [tg|]; cbn [bind t_tag]; rewrite String.eqb_refl; cbn [assert_]; eexists; (split; [reflexivity|]); cbv beta iota; rewrite Es; auto.
    + eexists. split; [reflexivity|]. cbv beta iota. rewrite Es. auto.
  - intros [[i [|]] r0] Hl; cbn [source_next].
    + destruct Hl as (H1&H2&_). inversion H1 as [? ? Ei Er E|]. assert (EN : nth_error (w_seqs w) i = None).
      { apply nth_error_None. apply (f_equal (@length _)) in E. rewrite skipn_length in E. cbn in E. lia. }
      rewrite EN. eexists. split; reflexivity.
    + eexists. split; reflexivity.
  - split; [exact HM|]. split; [lia|]. reflexivity.
Qed.
End Ds.

(* ---------- any functions of the user ---------- *)
Section Any.
Context {A R : Type}.
Notation options := (options A R).
Context (o : options) (epoch : nat) (tags : option (list string)).
Let nx := iter_next o epoch tags.
Let start := ((0%Q, true), (m_start (stream_of o), (0, true, o_seed o epoch))) : Q * bool * (m_state (stream_of o) * @source R).

Lemma dead_stays d : snd (fst d) = false -> nx d = (d, Stop).
Proof. destruct d as [[q b] d]. cbn [fst snd]. intros ->. reflexivity. Qed.
Lemma not_yield_dead d : (forall t, snd (nx d) <> Yield t) -> snd (fst (fst (nx d))) = false.
Proof.
  destruct d as [[q [|]] d]; [|reflexivity]. unfold nx, iter_next. cbn [validate_next]. destruct (m_next (stream_of o) _ _ d) as [d' [t| |e]]; [|reflexivity|reflexivity].
  destruct (validate_dict (o_check o) q t); [|reflexivity]. cbn [snd]. intros H. now elim (H t).
Qed.

Record ginv (s : state o) : Prop := {
  gi_epoch : st_epoch s = epoch;
  gi_tags : st_tags s = tags;
  gi_prod : st_produced s = st_count s;
  gi_iter : st_iter s = state_after nx (st_count s) start \/ snd (fst (st_iter s)) = false
}.
Lemma ginv_init s : init_seq_order o epoch tags = Ok s -> ginv s /\ st_count s = 0
  /\ st_num_seqs s = match o_stream o with Some _ => if preserves_num_seqs o then w_num_seqs (o_wrapped o epoch) else None | None => w_num_seqs (o_wrapped o epoch) end.
Proof.
  unfold init_seq_order. intros H. apply bind_Ok in H. destruct H as (?&_&H). apply Ok_inj in H. subst s. split; [|split; reflexivity]. constructor; try reflexivity. left. reflexivity.
Qed.
Lemma step_ginv s s' out : ginv s -> collect_step o s = (s', out) -> ginv s' /\ st_num_seqs s' = st_num_seqs s /\ st_count s' <= S (st_count s)
  /\ match out with
     | Yield t => st_count s' = S (st_count s) /\ result_of nx start (st_count s) = Yield t /\ (forall n, st_num_seqs s = Some n -> S (st_count s) <= n)
     | Stop => forall n, st_num_seqs s = Some n -> st_count s = n
     | Raise _ => True
     end.
Proof.
  intros [He Ht Hp Hi] H. unfold collect_step in H. rewrite He, Ht in H. change (iter_next o epoch tags) with nx in H.
  destruct (nx (st_iter s)) as [it oo] eqn:En.
  assert (Hd : (forall t, oo <> Yield t) -> snd (fst it) = false).
  { intros Hy. pose proof (not_yield_dead (st_iter s)) as X. rewrite En in X. exact (X Hy). }
  destruct oo as [t| |e]; injection H as <- <-.
  - assert (Ha : st_iter s = state_after nx (st_count s) start).
    { destruct Hi as [Hi|Hi]; [exact Hi|]. rewrite (dead_stays _ Hi) in En. discriminate. }
    split; [constructor; cbn; auto; left|].
    + transitivity (fst (nx (state_after nx (st_count s) start))); [|reflexivity]. rewrite <- Ha. now rewrite En.
    + split; [reflexivity|]. split; [cbn; lia|]. assert (Er : result_of nx start (st_count s) = Yield t) by (unfold result_of; now rewrite <- Ha, En).
      destruct (st_num_seqs s) as [n|]; [|split; [reflexivity|split; [exact Er|discriminate]]].
      change (match n with 0 => false | S m' => st_produced s <=? m' end) with (S (st_produced s) <=? n).
      destruct (Nat.leb_spec (S (st_produced s)) n) as [Hl|Hl]; [|exact I]. split; [reflexivity|split; [exact Er|]]. intros n' [= <-]. lia.
  - split; [constructor; cbn; auto; right; apply Hd; discriminate|]. split; [reflexivity|]. split; [cbn; lia|]. destruct (st_num_seqs s) as [n|]; [|discriminate].
    destruct (Nat.eqb_spec (st_produced s) n); [|exact I]. intros n' [= <-]. congruence.
  - split; [constructor; cbn; auto; right; apply Hd; discriminate|]. split; [reflexivity|]. split; [cbn; lia|exact I].
Qed.
Lemma loop_ginv i : forall gap s, ginv s -> st_count s <= i -> gap = i - st_count s -> forall s' r, collect_loop o s i gap = (s', r) ->
  ginv s' /\ st_num_seqs s' = st_num_seqs s /\ st_count s' <= S i
  /\ match r with
     | Ok (Some x) => (exists t, result_of nx start i = Yield t /\ x = as_seq t) /\ forall n, st_num_seqs s = Some n -> i < n
     | Ok None => forall n, st_num_seqs s = Some n -> n <= i
     | Err e => True
     end.
Proof.
  induction gap as [|gap IH]; intros s HI Hc Hg s' r H; cbn [collect_loop] in H; destruct (collect_step o s) as [s1 out] eqn:Es;
    destruct (step_ginv _ _ _ HI Es) as (HI1&Hn&Hc1&Ho).
  - assert (Ei : st_count s = i) by lia. subst i. destruct out as [t| |e].
    + destruct Ho as (H1&H2&H3). rewrite Nat.leb_refl, Nat.eqb_refl in H. destruct (t_frac t) as [[q|]|] eqn:Ef; injection H as <- <-; (split; [exact HI1|split; [exact Hn|split; [lia|]]]); try exact I;
      (split; [exists t; split; [exact H2|unfold as_seq; now rewrite Ef]|intros n Hn'; specialize (H3 n Hn'); lia]).
    + injection H as <- <-. split; [exact HI1|split; [exact Hn|split; [lia|]]]. intros n Hn'. specialize (Ho n Hn'). lia.
    + injection H as <- <-. split; [exact HI1|split; [exact Hn|split; [lia|exact I]]].
  - destruct out as [t| |e].
    + destruct Ho as (H1&H2&H3). destruct (Nat.leb_spec (st_count s) i); [|lia]. destruct (Nat.eqb_spec (st_count s) i); [lia|].
      destruct (IH s1 HI1 ltac:(lia) ltac:(lia) _ _ H) as (A1&A2&A3&A4). split; [exact A1|]. split; [congruence|]. split; [exact A3|]. rewrite <- Hn. exact A4.
    + injection H as <- <-. split; [exact HI1|split; [exact Hn|split; [lia|]]]. intros n Hn'. specialize (Ho n Hn'). lia.
    + injection H as <- <-. split; [exact HI1|split; [exact Hn|split; [lia|exact I]]].
Qed.
Definition result_ok (num : option nat) (i : nat) (r : res (option (dataset_seq A))) : Prop :=
  match r with
  | Ok (Some x) => (exists t, result_of nx start i = Yield t /\ x = as_seq t) /\ forall n, num = Some n -> i < n
  | Ok None => forall n, num = Some n -> n <= i
  | Err e => True
  end.
Lemma all_ginv : forall idxs s lo, ginv s -> st_count s <= lo -> increasing lo idxs -> Forall2 (result_ok (st_num_seqs s)) idxs (snd (collect_all o s idxs)).
Proof.
  induction idxs as [|i idxs IH]; intros s lo HI Hc Hinc; [constructor|]. destruct Hinc as [H1 H2]. cbn [collect_all].
  destruct (collect_single_seq o s i) as [s' r] eqn:E. destruct (loop_ginv i _ s HI ltac:(lia) eq_refl _ _ E) as (A1&A2&A3&A4).
  specialize (IH s' (S i) A1 A3 H2). rewrite A2 in IH. destruct (collect_all o s' idxs) as [s'' rs]. cbn [snd] in *. constructor; [exact A4|exact IH].
Qed.
Lemma epoch_any idxs rs : increasing 0 idxs -> epoch_results o epoch tags idxs = Ok rs ->
  Forall2 (result_ok (match o_stream o with Some _ => if preserves_num_seqs o then w_num_seqs (o_wrapped o epoch) else None | None => w_num_seqs (o_wrapped o epoch) end)) idxs rs.
Proof.
  unfold epoch_results. intros Hinc H. apply bind_Ok in H. destruct H as (s&Hs&H). apply Ok_inj in H. subst rs. destruct (ginv_init s Hs) as (HI&Hc&Hn).
  rewrite <- Hn. apply (all_ginv idxs s 0); auto. lia.
Qed.

(* in any order *)
Lemma late i s : ginv s -> i < st_count s -> forall s' r, collect_single_seq o s i = (s', r) ->
  ginv s' /\ st_num_seqs s' = st_num_seqs s /\ match r with Ok (Some _) => False | _ => True end.
Proof.
  intros HI Hi s' r H. unfold collect_single_seq in H. replace (i - st_count s) with 0 in H by lia. cbn [collect_loop] in H.
  destruct (collect_step o s) as [s1 out] eqn:Es; destruct (step_ginv _ _ _ HI Es) as (HI1&Hn&Hc1&Ho). destruct out as [t| |e]; [|injection H as <- <-; auto..].
  destruct (Nat.leb_spec (st_count s) i); [lia|]. injection H as <- <-. auto.
Qed.
Definition some_ok (num : option nat) (i : nat) (r : res (option (dataset_seq A))) : Prop :=
  match r with
  | Ok (Some x) => (exists t, result_of nx start i = Yield t /\ x = as_seq t) /\ forall n, num = Some n -> i < n
  | _ => True
  end.
Lemma all_some : forall idxs s, ginv s -> Forall2 (some_ok (st_num_seqs s)) idxs (snd (collect_all o s idxs)).
Proof.
  induction idxs as [|i idxs IH]; intros s HI; [constructor|]. cbn [collect_all].
  destruct (collect_single_seq o s i) as [s' r] eqn:E. assert (X : ginv s' /\ st_num_seqs s' = st_num_seqs s /\ some_ok (st_num_seqs s) i r).
  { destruct (Nat.le_gt_cases (st_count s) i) as [Hc|Hc].
    - destruct (loop_ginv i _ s HI Hc eq_refl _ _ E) as (A1&A2&A3&A4). split; [exact A1|]. split; [exact A2|]. destruct r as [[x|]|]; [exact A4|exact I..].
    - destruct (late i s HI Hc _ _ E) as (A1&A2&A3). split; [exact A1|]. split; [exact A2|]. destruct r as [[x|]|]; [contradiction|exact I..]. }
  destruct X as (A1&A2&A3). specialize (IH s' A1). rewrite A2 in IH. destruct (collect_all o s' idxs) as [s'' rs]. cbn [snd] in *. constructor; [exact A3|exact IH].
Qed.
Lemma epoch_some idxs rs : epoch_results o epoch tags idxs = Ok rs -> forall k i x, nth_error idxs k = Some i -> nth_error rs k = Some (Ok (Some x)) ->
  exists t, result_of nx start i = Yield t /\ x = as_seq t.
Proof.
  unfold epoch_results. intros H. apply bind_Ok in H. destruct H as (s&Hs&H). apply Ok_inj in H. subst rs. destruct (ginv_init s Hs) as (HI&_&_).
  intros k i x Hk Hr. exact (proj1 (Forall2_nth _ _ _ k i _ (all_some idxs s HI) Hk Hr)).
Qed.

(** *** fractions *)
Local Notation frac_of t := (d_frac (as_seq t)).
Lemma last_step d : (fst (fst d) <= fst (fst (fst (nx d))))%Q /\
  forall t, snd (nx d) = Yield t -> match frac_of t with Some q => (fst (fst d) <= q /\ 0 <= q <= 1)%Q /\ fst (fst (fst (nx d))) = q | None => True end.
Proof.
  destruct d as [[q b] d]. unfold nx, iter_next. cbn [validate_next]. destruct b; [|split; [apply Qle_refl|discriminate]].
  destruct (m_next (stream_of o) _ _ d) as [d' [t| |e]]; [|split; [apply Qle_refl|discriminate]|split; [apply Qle_refl|discriminate]].
  destruct (validate_dict (o_check o) q t) as [q'|e] eqn:E; [|split; [apply Qle_refl|discriminate]]. cbn [fst snd].
  unfold validate_dict in E. apply bind_Ok in E. destruct E as (q1&E1&E). apply bind_Ok in E. destruct E as (?&_&E). apply Ok_inj in E. subst q1.
  assert (X : (q <= q')%Q /\ match frac_of t with Some qq => (q <= qq /\ 0 <= qq <= 1)%Q /\ q' = qq | None => True end).
  { unfold as_seq. cbn [d_frac]. destruct (t_frac t) as [[qq|]|]; [|discriminate|].
    - apply bind_Ok in E1. destruct E1 as (?&Ha&E1). apply bind_Ok in E1. destruct E1 as (?&Hb&E1). apply Ok_inj in E1. subst qq. apply assert_Ok in Ha, Hb.
      apply andb_true_iff in Ha. rewrite !Qle_bool_iff in Ha. rewrite Qle_bool_iff in Hb. tauto.
    - apply Ok_inj in E1. subst. split; [apply Qle_refl|exact I]. }
  split; [tauto|]. intros t' [= <-]. tauto.
Qed.
Lemma last_mono k : forall j d, j <= k -> (fst (fst (state_after nx j d)) <= fst (fst (state_after nx k d)))%Q.
Proof.
  induction k as [|k IH]; intros j d Hj; [replace j with 0 by lia; apply Qle_refl|]. destruct (Nat.eq_dec j (S k)) as [->|Hj']; [apply Qle_refl|].
  eapply Qle_trans; [apply (IH j d); lia|]. apply (last_step (state_after nx k d)).
Qed.
Lemma fracs_any i t qi : result_of nx start i = Yield t -> frac_of t = Some qi -> (0 <= qi <= 1)%Q /\
  forall j t' qj, i < j -> result_of nx start j = Yield t' -> frac_of t' = Some qj -> (qi <= qj)%Q.
Proof.
  intros Hi Hq. destruct (last_step (state_after nx i start)) as [_ L]. specialize (L t Hi). rewrite Hq in L. destruct L as [[L1 L2] L3]. split; [exact L2|].
  intros j t' qj Hij Hj Hqj. destruct (last_step (state_after nx j start)) as [_ L']. specialize (L' t' Hj). rewrite Hqj in L'. destruct L' as [[L4 _] _].
  eapply Qle_trans; [|exact L4]. rewrite <- L3. exact (last_mono j (S i) start Hij).
Qed.

(** *** tags *)
Lemma tags_any f l : o_map_seq o = Some f -> o_stream o = None -> tags = Some l -> forall i t, result_of nx start i = Yield t -> t_tag t = nth_error l i.
Proof.
  intros Ef Es Et.
  assert (G : forall i, snd (fst (state_after nx i start)) = true -> fst (fst (snd (snd (state_after nx i start)))) = i).
  { subst nx start. unfold iter_next, stream_of. rewrite Es. cbn [identity_mapper m_next m_state m_start].
    intros i. match goal with |- context [state_after ?x i ?z] => set (X := x); set (S0 := z) end.
    induction i as [|i IH]; [reflexivity|]. change (state_after X (S i) S0) with (fst (X (state_after X i S0))).
    destruct (state_after X i S0) as [[q b] [[] [[k al] r]]] eqn:Ed. cbn [fst snd] in IH. unfold X. cbn [validate_next].
    destruct b; [|discriminate]. specialize (IH eq_refl). subst k. cbn [source_next]. destruct al; [|discriminate].
    destruct (nth_error _ _); [|discriminate]. rewrite Ef. destruct (f _ _ _) as [r' [t|e]]; [|discriminate].
    match goal with |- context [match ?e with Ok _ => _ | Err _ => _ end] => destruct e end; [|discriminate].
    destruct (validate_dict _ _ _); [reflexivity|discriminate]. }
  intros i t Hi. specialize (G i). unfold result_of in Hi. revert G Hi. generalize (state_after nx i start). subst nx start. unfold iter_next, stream_of. rewrite Es.
  cbn [identity_mapper m_next m_state m_start]. intros [[q b] [[] [[k al] r]]] G Hi. cbn [fst snd validate_next] in *. destruct b; [|discriminate]. specialize (G eq_refl). subst k.
  cbn [source_next] in Hi. destruct al; [|discriminate]. destruct (nth_error (w_seqs _) i); [|discriminate]. rewrite Ef, Et in Hi. destruct (f _ _ _) as [r' [t'|e]]; [|discriminate].
  cbv zeta in Hi. unfold pyget in Hi. destruct (nth_error l i) as [tg|]; [|discriminate]. cbn [bind] in Hi.
  match type of Hi with context [assert_ ?b] => destruct b eqn:Eb end; [|discriminate]. cbn [assert_] in Hi.
  match type of Hi with context [validate_dict ?a ?b ?c] => destruct (validate_dict a b c) end; [|discriminate]. cbn [snd] in Hi. injection Hi as <-. cbn [t_tag] in *.
  destruct (t_tag t'); apply String.eqb_eq in Eb; now subst.
Qed.
End Any.
