From Coq Require Import String.
From Verif Require Import Base ListLemmas PyDict Cached2Model MetaModel MetaSpec MetaProofs.
Local Open Scope nat_scope. Local Open Scope list_scope.

Lemma mapM_pyget_nth {A} (l : list A) idx l' i : mapM (pyget l) idx = Ok l' -> nth_error l' i = match nth_error idx i with Some p => nth_error l p | None => None end.
Proof.
  revert l' i. induction idx as [|p idx IH]; intros l' i H; cbn in H; [apply Ok_inj in H; subst; now destruct i|]. apply bind_Ok in H. destruct H as (x&Hx&H). apply pyget_Ok in Hx. apply bind_Ok in H. destruct H as (r&Hr&H). apply Ok_inj in H. subst l'. destruct i; cbn; [now rewrite Hx|]. now apply IH.
Qed.
Lemma mapM_pyget_len {A} (l : list A) idx l' : mapM (pyget l) idx = Ok l' -> length l' = length idx.
Proof. intros H. apply mapM_Ok_Forall2 in H. symmetry. eapply Forall2_len, H. Qed.
Lemma features_dget {X} (g : string -> res X) ks r k x : mapM (fun k => let* x := g k in Ok (k, x)) ks = Ok r -> dget r k = Some x -> g k = Ok x.
Proof.
  revert r. induction ks as [|a ks IH]; intros r H Hk; cbn in H; [apply Ok_inj in H; subst; discriminate Hk|]. apply bind_Ok in H. destruct H as (z&Hz&H). apply bind_Ok in Hz. destruct Hz as (y&Hy&Hz). apply Ok_inj in Hz. subst z. apply bind_Ok in H. destruct H as (r'&Hr&H). apply Ok_inj in H. subst r.
  cbn in Hk. destruct (String.eqb_spec a k) as [->|]; [now injection Hk as <-|]. exact (IH _ Hr Hk).
Qed.
Lemma features_has {X} (g : string -> res X) ks r k : mapM (fun k => let* x := g k in Ok (k, x)) ks = Ok r -> In k ks -> exists x, dget r k = Some x.
Proof.
  revert r. induction ks as [|a ks IH]; intros r H Hk; [destruct Hk|]. cbn in H. apply bind_Ok in H. destruct H as (z&Hz&H). apply bind_Ok in Hz. destruct Hz as (y&Hy&Hz). apply Ok_inj in Hz. subst z. apply bind_Ok in H. destruct H as (r'&Hr&H). apply Ok_inj in H. subst r.
  cbn. destruct (String.eqb_spec a k) as [->|]; [eauto|]. destruct Hk as [->|Hk]; [contradiction|]. exact (IH _ Hr Hk).
Qed.

Lemma mapM_ext_eq {A B} (g h : A -> res B) l : (forall x, In x l -> g x = h x) -> mapM g l = mapM h l.
Proof. induction l as [|a l IH]; intros H; [reflexivity|]. cbn. rewrite (H a (or_introl eq_refl)), IH; [reflexivity|]. intros x Hx. apply H. now right. Qed.

Section P.
  Context {X : Type}.
  Variables (given : @dict string (sub X)) (m : @dict string (string * string)) (f : seq_file) (ctrl : option string) (order : nat -> list nat) (c : conf X).
  Hypothesis Hctrl : ctrl <> Some ""%string.
  Hypothesis Hc : construct given m f ctrl order = Ok c.
  Let keys := dataset_keys_of m.
  Let CI := construct_inv given m f ctrl order c Hctrl Hc.

  Lemma tag_of st e idx cur_of i t : einv m c e idx cur_of st -> get_tag c st i = Ok t ->
    exists p l, nth_error idx i = Some p /\ tags_for given f (default_key c) (default_key c) = Some l /\ nth_error l p = Some t.
  Proof.
    intros [(o&Eo&Ho) _ _ _ _] H. unfold get_tag in H. rewrite Eo in H. cbn [bind] in H. apply bind_Ok in H. destruct H as (l&El&H). apply get_or_Ok in El. apply pyget_Ok in H.
    destruct (i_list _ _ _ _ _ _ CI _ (or_intror eq_refl)) as (l0&E0&Et). destruct (Ho _ _ E0) as (l'&E'&Hm). assert (l' = l) by congruence. subst l'. rewrite (mapM_pyget_nth _ _ _ _ Hm) in H. destruct (nth_error idx i) as [p|]; [|discriminate H]. exists p, l0. auto.
  Qed.
  Lemma check_of st e idx cur_of k i : einv m c e idx cur_of st -> In k keys -> check_dataset_seq st k i = Ok tt ->
    exists q s p l, dget (m_cur st) k = Some q /\ nth_error q i = Some s /\ nth_error idx i = Some p /\ tags_for given f (default_key c) k = Some l /\ nth_error l p = Some (snd (fst s)).
  Proof.
    intros [(o&Eo&Ho) _ _ _ _] Hk H. unfold check_dataset_seq in H. apply bind_Ok in H. destruct H as (q&Eq&H). apply get_or_Ok in Eq. apply bind_Ok in H. destruct H as (s&Es&H). apply pyget_Ok in Es. rewrite Eo in H. cbn [bind] in H. apply bind_Ok in H. destruct H as (l&El&H). apply get_or_Ok in El. apply bind_Ok in H. destruct H as (t&Et&H). apply pyget_Ok in Et. apply assert_Ok, String.eqb_eq in H.
    destruct (i_list _ _ _ _ _ _ CI k (or_introl Hk)) as (l0&E0&Et'). destruct (Ho _ _ E0) as (l'&E'&Hm). assert (l' = l) by congruence. subst l'. rewrite (mapM_pyget_nth _ _ _ _ Hm) in Et. destruct (nth_error idx i) as [p|]; [|discriminate Et]. exists q, s, p, l0. rewrite H. auto.
  Qed.
  Lemma pairing content st e idx i dk x : faithful given content -> einv m c e idx (cur_spec given e) st -> get_data st i dk = Ok x ->
    exists k sk p l0 t0 l t d, dget m dk = Some (k, sk) /\ nth_error idx i = Some p /\
      get_tag c st i = Ok t0 /\ tags_for given f (default_key c) (default_key c) = Some l0 /\ nth_error l0 p = Some t0 /\
      tags_for given f (default_key c) k = Some l /\ nth_error l p = Some t /\ content k t = Some d /\ dget d sk = Some x.
  Proof.
    intros Hf He H. unfold get_data in H. destruct (get_seq (m_added st) i) as [(t0&ft)|] eqn:Eg; [|discriminate H]. apply get_or_Ok in H. apply get_seq_In in Eg. destruct (e_added _ _ _ _ _ _ He _ _ _ Eg) as (Hcol&Hchk).
    unfold collect_single_seq in Hcol. apply bind_Ok in Hcol. destruct Hcol as (t0'&Et&Hcol). apply bind_Ok in Hcol. destruct Hcol as (ft'&Eft&Hcol). apply Ok_inj in Hcol. injection Hcol as -> ->. pose proof (features_dget _ _ _ _ _ Eft H) as Hd. unfold get_data_of in Hd. rewrite (i_map _ _ _ _ _ _ CI) in Hd.
    apply bind_Ok in Hd. destruct Hd as ((k&sk)&Ek&Hd). apply get_or_Ok in Ek. cbn [fst snd] in Hd. apply bind_Ok in Hd. destruct Hd as (q&Eq&Hd). apply get_or_Ok in Eq. apply bind_Ok in Hd. destruct Hd as (s&Es&Hd). apply pyget_Ok in Es. apply get_or_Ok in Hd.
    pose proof (keys_In m _ _ _ Ek) as Hk. destruct (check_of _ _ _ _ _ _ He Hk (Hchk _ Hk)) as (q'&s'&p&l&Eq'&Es'&Ep&El&Elp). rewrite Eq in Eq'. injection Eq' as <-. rewrite Es in Es'. injection Es' as <-.
    destruct (tag_of _ _ _ _ _ _ He Et) as (p'&l0&Ep'&El0&Elp0). rewrite Ep in Ep'. injection Ep' as <-. destruct (e_cur _ _ _ _ _ _ He _ _ Eq) as (sb&lo&Esb&Eseqs). destruct s as ((n&t)&d). cbn [fst snd] in *.
    exists k, sk, p, l0, t0, l, t, d. repeat (split; [assumption|]). split; [|exact Hd]. exact (Hf _ _ _ _ _ _ _ _ Esb Eseqs (nth_error_In _ _ Es)).
  Qed.

  (** loading works if all checks and the collecting do *)
  Definition good (st : meta X) (n : nat) : Prop := forall i, i < n -> (forall k, In k keys -> check_dataset_seq st k i = Ok tt) /\ exists y, collect_single_seq c st i = Ok y.
  Definition window (st : meta X) (h : nat) : Prop := m_start st <= h /\ map fst (m_added st) = seq (m_start st) (h - m_start st).
  Lemma last_idx_seq {A} (l : list (nat * A)) s h : s <= h -> map fst l = seq s (h - s) -> last_idx l = if s =? h then None else Some (h - 1).
  Proof.
    intros Hs Hl. unfold last_idx. destruct (Nat.eqb_spec s h) as [->|Hne].
    - rewrite Nat.sub_diag in Hl. destruct l; [reflexivity|discriminate Hl].
    - replace (h - s) with (S (h - 1 - s)) in Hl by lia. rewrite seq_S in Hl. replace (s + (h - 1 - s)) with (h - 1) in Hl by lia.
      apply (f_equal (@rev _)) in Hl. rewrite <- map_rev, rev_app_distr in Hl. cbn in Hl. destruct (rev l) as [|(i, x) r]; [discriminate Hl|]. cbn in Hl. now injection Hl as -> _.
  Qed.
  Lemma cleanup_seq {A} (l : list (nat * A)) a : forall s h, s <= a -> map fst l = seq s (h - s) -> map fst (cleanup_old_seqs l a) = seq a (h - a).
  Proof.
    induction l as [|(i, x) l IH]; intros s h Hs Hl; cbn [cleanup_old_seqs].
    - destruct (h - s) eqn:E; [|discriminate Hl]. now replace (h - a) with 0 by lia.
    - destruct (h - s) as [|n] eqn:E; [discriminate Hl|]. cbn in Hl. injection Hl as -> Hl. destruct (Nat.leb_spec a s).
      + replace a with s by lia. rewrite E. cbn. now rewrite Hl.
      + apply (IH (S s)); [lia|]. now replace (h - S s) with n by lia.
  Qed.
  Lemma good_ext st st' n : m_ordered st' = m_ordered st -> m_cur st' = m_cur st -> good st n -> good st' n.
  Proof.
    intros E1 E2 H i Hi. destruct (H i Hi) as (H1&y&H2). split; [intros k Hk; unfold check_dataset_seq; rewrite E1, E2; exact (H1 k Hk)|]. exists y. rewrite <- H2. unfold collect_single_seq, get_tag, get_data_of. now rewrite E1, E2.
  Qed.
  Lemma load_good st n h a b : good st n -> window st h -> m_start st <= a -> a <= b -> b <= n ->
    exists st', load_seqs c st a b = (st', Ok tt) /\ good st' n /\ window st' (Nat.max h b) /\ m_start st' = a.
  Proof.
    intros Hg (Hh&Hw) Ha Hb Hn. unfold load_seqs. destruct (Nat.leb_spec a b); [|lia]. cbn [negb]. rewrite (i_map _ _ _ _ _ _ CI). fold keys.
    assert (Es : match last_idx (m_added st) with Some i => Nat.max (i + 1) a | None => a end = Nat.max h a). { rewrite (last_idx_seq _ _ _ Hh Hw). destruct (Nat.eqb_spec (m_start st) h); lia. }
    rewrite Es. assert (Hall : exists u, mapM (fun k => mapM (check_dataset_seq st k) (seq (Nat.max h a) (b - Nat.max h a))) keys = Ok u).
    { apply mapM_intro. intros k Hk. apply mapM_intro. intros i Hi. apply in_seq in Hi. exists tt. apply (Hg i); [lia|exact Hk]. }
    destruct Hall as (u&->). destruct (Nat.leb_spec (m_start st) a); [|lia]. cbn [negb].
    set (p := if m_start st <? a then (cleanup_old_seqs (m_added st) a, a) else (m_added st, m_start st)).
    assert (Hp : map fst (fst p) = seq a (Nat.max h a - a) /\ snd p = a).
    { unfold p. destruct (Nat.ltb_spec (m_start st) a); cbn [fst snd].
      - split; [|reflexivity]. rewrite (cleanup_seq _ _ _ _ Ha Hw). f_equal. lia.
      - assert (E : m_start st = a) by lia. rewrite <- E at 1. split; [|exact E]. rewrite Hw. rewrite E. f_equal. lia. }
    destruct p as [added expected]. cbn [fst snd] in Hp. destruct Hp as (Hp&->). rewrite (last_idx_seq added a (Nat.max h a) ltac:(lia) Hp). replace (match (if a =? Nat.max h a then None else Some (Nat.max h a - 1)) with Some i => Nat.max (i + 1) a | None => a end) with (Nat.max h a) by (destruct (Nat.eqb_spec a (Nat.max h a)); lia).
    set (st' := Meta (m_epoch st) (m_ordered st) (m_num_seqs st) (m_cur st) a added).
    assert (Hcol : exists new, mapM (fun i => let* s := collect_single_seq c st' i in Ok (i, s)) (seq (Nat.max h a) (b - Nat.max h a)) = Ok new).
    { apply mapM_intro. intros i Hi. apply in_seq in Hi. assert (Hg' : good st' n) by (eapply good_ext; [| |exact Hg]; reflexivity). destruct (proj2 (Hg' i ltac:(lia))) as (y&Ey). exists (i, y). now rewrite Ey. }
    destruct Hcol as (new&En). rewrite En. eexists. split; [reflexivity|]. split; [eapply good_ext; [| |exact Hg]; reflexivity|]. split; [|reflexivity]. split; cbn [m_start m_added]; [lia|].
    assert (Ef : map fst new = seq (Nat.max h a) (b - Nat.max h a)).
    { clear - En. revert new En. generalize (seq (Nat.max h a) (b - Nat.max h a)). induction l as [|i l IH]; intros new H; cbn in H; [apply Ok_inj in H; now subst|]. apply bind_Ok in H. destruct H as (z&Hz&H). apply bind_Ok in Hz. destruct Hz as (y&_&Hz). apply Ok_inj in Hz. subst z. apply bind_Ok in H. destruct H as (r&Hr&H). apply Ok_inj in H. subst new. cbn. now rewrite (IH _ Hr). }
    rewrite map_app, Hp, Ef. replace (Nat.max h b - a) with ((Nat.max h a - a) + (b - Nat.max h a)) by lia. rewrite seq_app. f_equal. f_equal. lia.
  Qed.
  Lemma loads_good n l : forall st h, good st n -> window st h -> forward_loads n (m_start st) l ->
    Forall (fun p => exists l1 l2, l = l1 ++ p :: l2 /\ snd (load_seqs c (loads c st l1) (fst p) (snd p)) = Ok tt) l /\
    exists h', good (loads c st l) n /\ window (loads c st l) h' /\ (forall l1 a b, l = l1 ++ [(a, b)] -> m_start (loads c st l) = a /\ b <= h').
  Proof.
    induction l as [|(a, b) l IH]; intros st h Hg Hw Hf.
    - split; [constructor|]. exists h. split; [exact Hg|]. split; [exact Hw|]. intros [|? ?] ? ? E; discriminate E.
    - cbn [forward_loads] in Hf. destruct Hf as (Ha&Hb&Hn&Hf). destruct (load_good st n h a b Hg Hw Ha Hb Hn) as (st'&El&Hg'&Hw'&Hs). rewrite <- Hs in Hf. destruct (IH _ _ Hg' Hw' Hf) as (Hall&h'&Hg2&Hw2&Hlast).
      assert (E : loads c st ((a, b) :: l) = loads c st' l) by (unfold loads; cbn [fold_left fst snd]; now rewrite El).
      split.
      + constructor; [exists [], l; split; [reflexivity|]; cbn; now rewrite El|]. eapply Forall_impl; [|exact Hall]. intros p (l1&l2&E1&E2). exists ((a, b) :: l1), l2. split; [cbn; now rewrite E1|]. unfold loads. cbn [fold_left fst snd]. rewrite El. exact E2.
      + rewrite E. destruct l as [|y l].
        * exists (Nat.max h b). split; [exact Hg'|]. split; [exact Hw'|]. intros l1 a' b' El1. destruct l1 as [|z [|? ?]]; cbn in El1; [injection El1 as <- <-; cbn; split; [exact Hs|lia]|discriminate El1|discriminate El1].
        * exists h'. split; [exact Hg2|]. split; [exact Hw2|]. intros [|z l1] a' b' El1; [discriminate El1|]. cbn in El1. injection El1 as _ El1. exact (Hlast _ _ _ El1).
  Qed.
  Lemma window_data st n h i dk : good st n -> window st h -> (forall i t ft, In (i, (t, ft)) (m_added st) -> collect_single_seq c st i = Ok (t, ft)) -> m_start st <= i < h -> In dk (dkeys m) -> exists x, get_data st i dk = Ok x.
  Proof.
    intros Hg (Hh&Hw) Ha Hi Hdk. unfold get_data. destruct (get_seq (m_added st) i) as [(t&ft)|] eqn:E.
    - apply get_seq_In in E. pose proof (Ha _ _ _ E) as Hcol. unfold collect_single_seq in Hcol. apply bind_Ok in Hcol. destruct Hcol as (t0&_&Hcol). apply bind_Ok in Hcol. destruct Hcol as (ft'&Eft&Hcol). apply Ok_inj in Hcol. injection Hcol as -> ->.
      rewrite (i_map _ _ _ _ _ _ CI) in Eft. destruct (features_has _ _ _ _ Eft Hdk) as (x&Ex). exists x. now apply get_or_Ok.
    - exfalso. assert (Hin : In i (map fst (m_added st))) by (rewrite Hw; apply in_seq; lia). clear - E Hin. induction (m_added st) as [|(j, y) l IH]; [destruct Hin|]. cbn in E. destruct (Nat.eqb_spec j i) as [->|]; [discriminate E|]. destruct Hin as [Hin|Hin]; [cbn in Hin; contradiction|]. now apply IH.
  Qed.

  (** the contract of the sub-datasets *)
  Hypothesis Hord : forall k s, In k keys -> dget given k = Some s -> can_order s.
  Hypothesis Hincl : forall k s l, In k keys -> dget given k = Some s -> tags_for given f (default_key c) k = Some l -> incl l (all_tags s).
  Hypothesis Hown : forall k s, ctrl = Some k -> dget given k = Some s -> own_order s /\ tags_for given f (default_key c) k = Some (all_tags s).
  Hypothesis Hdef : In (default_key c) keys.
  Hypothesis Hfile : forall d, f = ListPerDataset d -> dict_ok d /\ incl (dkeys d) keys.

  Lemma lists_In k l : In (k, l) (seq_list c) -> In k keys /\ dget (seq_list c) k = Some l.
  Proof.
    intros H. assert (Hk : In k keys /\ dict_ok (seq_list c)).
    { assert (Hin : In k (dkeys (seq_list c))) by (apply (in_map fst) in H; exact H). destruct f as [|l'|d] eqn:Ef.
      - rewrite (i_only _ _ _ _ _ _ CI (or_introl eq_refl)) in Hin. split; [exact Hin|]. unfold dict_ok. rewrite (i_only _ _ _ _ _ _ CI (or_introl eq_refl)). apply NoDup_nodup.
      - rewrite (i_only _ _ _ _ _ _ CI (or_intror (ex_intro _ _ eq_refl))) in Hin. split; [exact Hin|]. unfold dict_ok. rewrite (i_only _ _ _ _ _ _ CI (or_intror (ex_intro _ _ eq_refl))). apply NoDup_nodup.
      - destruct (Hfile d eq_refl) as (Hd&Hi). pose proof (i_file _ _ _ _ _ _ CI d eq_refl) as Efl. rewrite Efl in Hin |- *. split; [exact (Hi _ Hin)|exact Hd]. }
    destruct Hk as (Hk&Hd). split; [exact Hk|]. now apply In_dget.
  Qed.
  Lemma sub_of k s : In (k, s) (datasets c) -> In k keys /\ dget given k = Some s /\ dget (datasets c) k = Some s.
  Proof.
    intros H. assert (Hk : In k keys) by (unfold keys; rewrite <- (i_keys _ _ _ _ _ _ CI); apply (in_map fst) in H; exact H). split; [exact Hk|].
    assert (E : dget (datasets c) k = Some s) by (apply In_dget; [unfold dict_ok; rewrite (i_keys _ _ _ _ _ _ CI); apply NoDup_nodup|exact H]). split; [|exact E].
    rewrite (i_ds _ _ _ _ _ _ CI) in E. fold keys in E. now rewrite (proj2 (existsb_str _ _) Hk) in E.
  Qed.

  Lemma init_works st e arg tags : tags_for given f (default_key c) (default_key c) = Some tags -> valid_request ctrl order e arg tags -> m_epoch st <> Some e ->
    exists st1 idx, init_seq_order c st e arg = (st1, Ok true) /\ num_seqs st1 = Ok (length idx) /\ wants given f ctrl (default_key c) order e arg idx /\ good st1 (length idx) /\ window st1 0 /\ m_start st1 = 0 /\ einv m c e idx (cur_spec given e) st1.
  Proof.
    intros Et Hv He. destruct (i_list _ _ _ _ _ _ CI _ (or_intror eq_refl)) as (tags'&Etl&Et'). rewrite Et in Et'. injection Et' as <-.
    assert (Hsi : exists idx bc, seq_index c e arg = Ok (idx, bc) /\ Forall (fun p => p < length tags) idx).
    { unfold seq_index. destruct arg as [|l|l]; cbn [valid_request] in Hv.
      - rewrite (i_control _ _ _ _ _ _ CI). destruct ctrl as [k|] eqn:Ek.
        + pose proof (i_default _ _ _ _ _ _ CI) as Hd. cbn in Hd. injection Hd as Ed. assert (Hkk : In k keys) by (rewrite Ed; exact Hdef).
          destruct (i_ds_in _ _ _ _ _ _ CI k Hkk) as (s&Es). destruct (Hown k s eq_refl Es) as (Ho&Etk). destruct (Ho e) as (q&Eq&Hq). rewrite (proj2 (get_or_Ok KeyError (datasets c) k s)) by (rewrite (i_ds _ _ _ _ _ _ CI); fold keys; now rewrite (proj2 (existsb_str _ _) Hkk)). cbn [bind]. rewrite Eq. cbn [bind]. eexists _, _. split; [reflexivity|].
          apply Forall_forall. intros p Hp. apply in_map_iff in Hp. destruct Hp as (((n&t)&d)&<-&Hin). cbn. destruct (Hq _ _ _ Hin) as (Hn&_). rewrite Ed, Et in Etk. injection Etk as ->. apply nth_error_Some. congruence.
        + rewrite (i_order _ _ _ _ _ _ CI). eexists _, _. split; [reflexivity|]. now apply Hv.
      - assert (Hm : exists is, mapM (get_or KeyError (tag_idx c)) l = Ok is).
        { apply mapM_intro. intros t Ht. rewrite (i_tag _ _ _ _ _ _ CI _ Etl). pose proof (tag_idx_has tags 0 [] t (or_introl (Hv _ Ht))) as Hh. unfold get_or. destruct (dget _ t); [eauto|now elim Hh]. }
        destruct Hm as (is&Em). rewrite Em. cbn [bind]. eexists _, _. split; [reflexivity|]. apply mapM_Ok_Forall2 in Em. clear - Em Etl CI. induction Em as [|t p l is Hp Hr IH]; constructor; [|exact IH]. apply get_or_Ok in Hp. rewrite (i_tag _ _ _ _ _ _ CI _ Etl) in Hp. apply tag_idx_gen in Hp. destruct Hp as [(q&->&Hq&_)|(Hp&_)]; [|discriminate Hp]. apply nth_error_Some. cbn. congruence.
      - eexists _, _. split; [reflexivity|exact Hv]. }
    destruct Hsi as (idx&bc&Esi&Hidx). destruct (seq_index_wants _ _ _ _ _ _ Hctrl Hc _ _ _ _ Esi) as (Hw&Hbc).
    assert (Ho : exists o, mapM (fun '(k, l) => let* l' := mapM (pyget l) idx in Ok (k, l')) (seq_list c) = Ok o).
    { apply mapM_intro. intros (k, l) Hin. destruct (lists_In _ _ Hin) as (Hk&El). assert (Hm : exists l', mapM (pyget l) idx = Ok l').
      { apply mapM_intro. intros p Hp. rewrite Forall_forall in Hidx. specialize (Hidx _ Hp). rewrite <- (i_len _ _ _ _ _ _ CI _ _ _ Hk El Etl) in Hidx. destruct (nth_error l p) as [t|] eqn:E; [exists t; now apply pyget_Ok|]. apply nth_error_None in E. lia. }
      destruct Hm as (l'&->). eexists. reflexivity. }
    destruct Ho as (o&Eo).
    assert (Hget : forall k, In k keys -> exists l l', dget (seq_list c) k = Some l /\ tags_for given f (default_key c) k = Some l /\ mapM (pyget l) idx = Ok l' /\ dget o k = Some l').
    { intros k Hk. destruct (i_list _ _ _ _ _ _ CI k (or_introl Hk)) as (l&El&Etl'). pose proof (mapM_dget (fun _ l => mapM (pyget l) idx) _ _ k Eo) as Hd. rewrite El in Hd. destruct Hd as (l'&E1&E2). exists l, l'. auto. }
    assert (Hsub : forall k s, In (k, s) (datasets c) -> exists l' q, dget o k = Some l' /\ seqs_of s e (Some l') = Ok q).
    { intros k s Hin. destruct (sub_of _ _ Hin) as (Hk&Es&_). destruct (Hget _ Hk) as (l&l'&El&Etl'&Em&Eo'). destruct (Hord k s Hk Es e l') as (q&Eq&_).
      - intros t Ht. apply In_nth_error in Ht. destruct Ht as (i&Hi). rewrite (mapM_pyget_nth _ _ _ _ Em) in Hi. destruct (nth_error idx i); [|discriminate Hi]. exact (Hincl _ _ _ Hk Es Etl' _ (nth_error_In _ _ Hi)).
      - exists l', q. auto. }
    assert (Hcur : exists cur, mapM (fun '(k, s) => match bc with
                                           | Some (k', seqs) => if String.eqb k k' then Ok (k, seqs) else
                                                                let* l := get_or KeyError o k in let* q := seqs_of s e (Some l) in Ok (k, q)
                                           | None => let* l := get_or KeyError o k in let* q := seqs_of s e (Some l) in Ok (k, q)
                                           end) (datasets c) = Ok cur).
    { apply mapM_intro. intros (k, s) Hin. destruct (Hsub _ _ Hin) as (l'&q&El&Eq). rewrite (proj2 (get_or_Ok KeyError o k l') El). cbn [bind]. rewrite Eq. cbn [bind]. destruct bc as [(k'&qs)|]; [destruct (String.eqb k k')|]; eexists; reflexivity. }
    destruct Hcur as (cur&Ecur).
    set (st1 := Meta (Some e) (Some o) (Some (length idx)) cur 0 []).
    assert (Einit : init_seq_order c st e arg = (st1, Ok true)).
    { unfold init_seq_order. cbn [m_ordered]. assert (En : match m_epoch st with None => true | Some e0 => negb (e0 =? e) end = true). { destruct (m_epoch st) as [e0|]; [|reflexivity]. destruct (Nat.eqb_spec e0 e); [congruence|reflexivity]. } rewrite En. cbn [orb]. rewrite Esi, Eo. cbn [m_cur]. rewrite Ecur. destruct (m_ordered st); reflexivity. }
    exists st1, idx. split; [exact Einit|]. split; [reflexivity|]. split; [exact Hw|]. split; [|split; [split; [reflexivity|reflexivity]|split; [reflexivity|]]].
    - intros i Hi. assert (Hp : exists p, nth_error idx i = Some p). { destruct (nth_error idx i) eqn:E; [eauto|]. apply nth_error_None in E. lia. } destruct Hp as (p&Ep).
      assert (Hpl : p < length tags) by (rewrite Forall_forall in Hidx; apply Hidx; eapply nth_error_In, Ep).
      (* what each sub-dataset has at this position *)
      assert (Hat : forall k, In k keys -> exists q s n t d l' sb, dget cur k = Some q /\ nth_error q i = Some s /\ s = (n, t, d) /\ dget o k = Some l' /\ nth_error l' i = Some t /\ dget (datasets c) k = Some sb /\ incl (outputs sb) (dkeys d)).
      { intros k Hk. destruct (Hget k Hk) as (l&l'&El&Etl'&Em&Eo'). destruct (i_ds_in _ _ _ _ _ _ CI k Hk) as (sb&Esb). assert (Eds : dget (datasets c) k = Some sb) by (rewrite (i_ds _ _ _ _ _ _ CI); fold keys; now rewrite (proj2 (existsb_str _ _) Hk)).
        assert (Hlp : exists t, nth_error l p = Some t). { pose proof (i_len _ _ _ _ _ _ CI _ _ _ Hk El Etl) as Hll. destruct (nth_error l p) eqn:E; [eauto|]. apply nth_error_None in E. lia. } destruct Hlp as (t&Elp).
        assert (Eti : nth_error l' i = Some t) by (rewrite (mapM_pyget_nth _ _ _ _ Em), Ep; exact Elp).
        pose proof (mapM_dget (fun k s => match bc with Some (k', qs) => if String.eqb k k' then Ok qs else let* l := get_or KeyError o k in seqs_of s e (Some l) | None => let* l := get_or KeyError o k in seqs_of s e (Some l) end) (datasets c) cur k) as Hd.
        rewrite Eds in Hd. assert (Hd' := fun H => Hd H). clear Hd. destruct Hd' as (q&Hq&Ecq).
        { rewrite <- Ecur. apply mapM_ext_eq. intros (k2, s2) _. destruct bc as [(k'&qs)|]; [destruct (String.eqb k2 k'); [reflexivity|]|]; destruct (get_or KeyError o k2); cbn; [|reflexivity| |reflexivity]; destruct (seqs_of s2 e _); reflexivity. }
        assert (Hgo : (let* l := get_or KeyError o k in seqs_of sb e (Some l)) = Ok q -> exists q0 s n t d l'0 sb0, dget cur k = Some q0 /\ nth_error q0 i = Some s /\ s = (n, t, d) /\ dget o k = Some l'0 /\ nth_error l'0 i = Some t /\ dget (datasets c) k = Some sb0 /\ incl (outputs sb0) (dkeys d)).
        { intros H. rewrite (proj2 (get_or_Ok KeyError o k l') Eo') in H. cbn [bind] in H. destruct (Hord k sb Hk Esb e l') as (q'&Eq'&Emt&Hout).
          - intros t' Ht. apply In_nth_error in Ht. destruct Ht as (j&Hj). rewrite (mapM_pyget_nth _ _ _ _ Em) in Hj. destruct (nth_error idx j); [|discriminate Hj]. exact (Hincl _ _ _ Hk Esb Etl' _ (nth_error_In _ _ Hj)).
          - rewrite H in Eq'. apply Ok_inj in Eq'. subst q'. pose proof Eti as Hqi. rewrite <- Emt in Hqi. rewrite nth_error_map in Hqi. change (option_map (fun x : sseq X => snd (fst x)) (nth_error q i) = Some t) in Hqi. destruct (nth_error q i) as [((n&t')&d)|] eqn:Eqi; [|discriminate Hqi]. cbn in Hqi. injection Hqi as ->.
            exists q, (n, t, d), n, t, d, l', sb. repeat (split; [first [assumption | reflexivity]|]). exact (Hout _ _ _ (nth_error_In _ _ Eqi)). }
        destruct bc as [(k'&qs)|]; [|now apply Hgo]. destruct (String.eqb_spec k k') as [Ekk|]; [|now apply Hgo]. apply Ok_inj in Hq. subst q k'. destruct Hbc as (Ectrl&s'&Es'&Eqs&Eidx). rewrite Esb in Es'. injection Es' as <-. destruct (Hown k sb Ectrl Esb) as (Hoo&Etk). rewrite Etl' in Etk. injection Etk as ->. destruct (Hoo e) as (q'&Eq'&Hq'). rewrite Eqs in Eq'. apply Ok_inj in Eq'. subst q'.
        rewrite Eidx, nth_error_map in Ep. change (option_map (fun x : sseq X => fst (fst x)) (nth_error qs i) = Some p) in Ep. destruct (nth_error qs i) as [((n&t')&d)|] eqn:Eqi; [|discriminate Ep]. cbn in Ep. injection Ep as ->. destruct (Hq' _ _ _ (nth_error_In _ _ Eqi)) as (Ht'&Hout). rewrite Elp in Ht'. injection Ht' as <-.
        exists qs, (p, t, d), p, t, d, l', sb. repeat (split; [first [assumption | reflexivity]|]). exact Hout. }
      split.
      + intros k Hk. destruct (Hat k Hk) as (q&s&n&t&d&l'&sb&E1&E2&E3&E4&E5&_). unfold check_dataset_seq, st1. cbn [m_cur m_ordered]. rewrite (proj2 (get_or_Ok KeyError cur k q) E1). cbn [bind]. rewrite (proj2 (pyget_Ok q i s) E2). cbn [bind]. rewrite (proj2 (get_or_Ok KeyError o k l') E4). cbn [bind]. rewrite (proj2 (pyget_Ok l' i t) E5). cbn [bind]. subst s. cbn. now rewrite String.eqb_refl.
      + unfold collect_single_seq, get_tag, st1. cbn [m_ordered bind]. destruct (Hat _ Hdef) as (q&s&n&t&d&l'&sb&_&_&_&E4&E5&_). rewrite (proj2 (get_or_Ok KeyError o _ l') E4). cbn [bind]. rewrite (proj2 (pyget_Ok l' i t) E5). cbn [bind].
        assert (Hft : exists ft, mapM (fun k => let* x := get_data_of c st1 i k in Ok (k, x)) (dkeys (data_map c)) = Ok ft).
        { apply mapM_intro. intros dk Hdk. rewrite (i_map _ _ _ _ _ _ CI) in Hdk. assert (Hm : exists v, dget m dk = Some v). { destruct (dget m dk) eqn:E; [eauto|]. apply dget_None in E. contradiction. } destruct Hm as ((k&sk)&Edk).
          destruct (Hat k (keys_In m _ _ _ Edk)) as (q2&s2&n2&t2&d2&l2&sb2&F1&F2&F3&_&_&F6&F7). unfold get_data_of. rewrite (i_map _ _ _ _ _ _ CI), (proj2 (get_or_Ok KeyError m dk _) Edk). cbn [bind fst snd]. unfold st1. cbn [m_cur]. rewrite (proj2 (get_or_Ok KeyError cur k q2) F1). cbn [bind]. rewrite (proj2 (pyget_Ok q2 i s2) F2). cbn [bind]. subst s2. cbn [snd].
          pose proof (i_out _ _ _ _ _ _ CI _ _ _ _ (dget_In _ _ _ Edk) F6) as Hsk. apply F7 in Hsk. destruct (dget d2 sk) as [x|] eqn:Ex; [|apply dget_None in Ex; contradiction]. unfold get_or. rewrite Ex. eexists. reflexivity. }
        fold st1. destruct Hft as (ft&->). eexists. reflexivity.
    - destruct (init_einv _ _ _ _ _ _ Hctrl Hc _ _ _ _ Einit) as (idx'&_&Hei&_&_&o'&bc'&_&Esi'&_). rewrite Esi in Esi'. apply Ok_inj in Esi'. injection Esi' as <- <-. exact Hei.
  Qed.
End P.
