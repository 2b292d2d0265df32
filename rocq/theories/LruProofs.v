(** Proofs about the LRU cache: the linked ring represents the list of entries. *)
From Verif Require Import Base ListLemmas PyDict LruModel LruSpec.

Section P.
  Context {K V : Type} {E : EqB K}.
  Notation heap := (@heap K V).
  Notation state := (state K V).

  Definition nx (h : heap) a := option_map (@l_next K V) (h a).
  Definition pv (h : heap) a := option_map (@l_prev K V) (h a).
  Definition kr (h : heap) a := option_map (fun l => (@l_key K V l, l_res l)) (h a).

  Lemma hget_ok (h : heap) a p : pv h a = Some p -> exists l, hget h a = Ok l /\ h a = Some l /\ l_prev l = p.
  Proof. unfold hget, pv. destruct (h a) as [l|]; [|discriminate]. intros H. injection H as <-. now exists l. Qed.
  Lemma alive_nx (h : heap) a : nx h a <> None <-> h a <> None.
  Proof. unfold nx. destruct (h a); cbn; split; congruence. Qed.
  Lemma alive_pv (h : heap) a : pv h a <> None <-> h a <> None.
  Proof. unfold pv. destruct (h a); cbn; split; congruence. Qed.
  Lemma alive_kr (h : heap) a : kr h a <> None <-> h a <> None.
  Proof. unfold kr. destruct (h a); cbn; split; congruence. Qed.

  Lemma set_next_ok (h : heap) x y : h x <> None -> exists h', set_next h x y = Ok h' /\
    (forall b, nx h' b = if x =? b then Some y else nx h b) /\ (forall b, pv h' b = pv h b) /\ (forall b, kr h' b = kr h b).
  Proof.
    intros Hx. unfold set_next, hget. destruct (h x) as [l|] eqn:Hl; [|congruence]. cbn [bind]. eexists. split; [reflexivity|].
    unfold nx, pv, kr, hset. split; [|split]; intros b; destruct (Nat.eqb_spec x b) as [<-|]; try rewrite Hl; reflexivity.
  Qed.
  Lemma set_prev_ok (h : heap) x y : h x <> None -> exists h', set_prev h x y = Ok h' /\
    (forall b, pv h' b = if x =? b then Some y else pv h b) /\ (forall b, nx h' b = nx h b) /\ (forall b, kr h' b = kr h b).
  Proof.
    intros Hx. unfold set_prev, hget. destruct (h x) as [l|] eqn:Hl; [|congruence]. cbn [bind]. eexists. split; [reflexivity|].
    unfold nx, pv, kr, hset. split; [|split]; intros b; destruct (Nat.eqb_spec x b) as [<-|]; try rewrite Hl; reflexivity.
  Qed.
  Lemma set_kr_ok (h : heap) x k r : h x <> None -> exists h', set_kr h x k r = Ok h' /\
    (forall b, pv h' b = pv h b) /\ (forall b, nx h' b = nx h b) /\ (forall b, kr h' b = if x =? b then Some (k, r) else kr h b).
  Proof.
    intros Hx. unfold set_kr, hget. destruct (h x) as [l|] eqn:Hl; [|congruence]. cbn [bind]. eexists. split; [reflexivity|].
    unfold nx, pv, kr, hset. split; [|split]; intros b; destruct (Nat.eqb_spec x b) as [<-|]; try rewrite Hl; reflexivity.
  Qed.

  (** ** linked lists *)
  Fixpoint linked (h : heap) (x : nat) (l : list nat) : Prop :=
    match l with [] => True | y :: l' => nx h x = Some y /\ pv h y = Some x /\ linked h y l' end.

  Lemma linked_snoc h x l y : linked h x (l ++ [y]) <-> linked h x l /\ nx h (last l x) = Some y /\ pv h y = Some (last l x).
  Proof.
    revert x. induction l as [|z l IH]; intros x; cbn [app linked].
    - cbn [last]. tauto.
    - rewrite IH. replace (last (z :: l) x) with (last l z); [tauto|]. clear. revert z. induction l as [|w l IH]; intros z; [reflexivity|].
      change (last (w :: l) z = last (w :: l) x). destruct l; [reflexivity|]. rewrite <- (IH w). clear. revert w n. induction l as [|u l IH]; intros w n; [reflexivity|].
      change (last (u :: l) z = last (u :: l) w). clear. revert u. induction l; intros u; [reflexivity|]. exact (IHl a).
  Qed.
  Lemma linked_app h x l y t : linked h x (l ++ y :: t) <-> linked h x (l ++ [y]) /\ linked h y t.
  Proof. revert x. induction l as [|z l IH]; intros x; cbn [app linked]; [tauto|]. rewrite IH. tauto. Qed.
  Lemma linked_frame h h' x l : (forall b, In b (removelast (x :: l)) -> nx h' b = nx h b) -> (forall b, In b l -> pv h' b = pv h b) ->
    linked h x l -> linked h' x l.
  Proof.
    revert x. induction l as [|y l IH]; intros x Hn Hp; [trivial|]. cbn [linked]. intros (H1&H2&H3).
    change (removelast (x :: y :: l)) with (x :: removelast (y :: l)) in Hn.
    split; [rewrite Hn by (now left); exact H1|]. split; [rewrite Hp by (now left); exact H2|]. apply IH; [intros; apply Hn; now right|intros; apply Hp; now right|exact H3].
  Qed.
  Lemma last_split (x : nat) l : x :: l = removelast (x :: l) ++ [last l x].
  Proof.
    rewrite (app_removelast_last x (l := x :: l)) at 1 by discriminate. f_equal. f_equal.
    destruct l; [reflexivity|]. change (last (n :: l) x = last (n :: l) x). reflexivity.
  Qed.
  Lemma last_not_in (x : nat) l : NoDup (x :: l) -> ~ In (last l x) (removelast (x :: l)).
  Proof. intros H. rewrite (last_split x l) in H. apply NoDup_remove_2 in H. now rewrite app_nil_r in H. Qed.
  Lemma last_in (x : nat) l : In (last l x) (x :: l).
  Proof. rewrite (last_split x l). apply in_or_app. right. now left. Qed.
  Lemma removelast_in (x : nat) l b : In b (removelast (x :: l)) -> In b (x :: l).
  Proof. intros H. rewrite (last_split x l). apply in_or_app. now left. Qed.

  Definition ring (h : heap) (r : nat) (l : list nat) : Prop := linked h r (l ++ [r]).

  Lemma ring_alive h r l b : ring h r l -> In b (r :: l) -> h b <> None.
  Proof.
    unfold ring. intros H Hb. apply alive_pv. assert (Hi : In b (l ++ [r])) by (apply in_or_app; destruct Hb; [right; now left|now left]).
    clear Hb. revert H Hi. generalize (l ++ [r]) as m. intros m. revert r. induction m as [|y m IH]; intros r Hm Hi; [contradiction|].
    destruct Hm as (H1&H2&H3). destruct Hi as [<-|Hi]; [congruence|]. now apply (IH y).
  Qed.

  (** take a link out *)
  Lemma unlink_ring h h' r l1 a l2 : NoDup (r :: l1 ++ a :: l2) -> ring h r (l1 ++ a :: l2) ->
    exists p n, pv h a = Some p /\ nx h a = Some n /\ p <> a /\ n <> a /\ h p <> None /\ h n <> None /\ In p (r :: l1) /\ In n (l2 ++ [r]) /\
      (l1 = [] -> p = r) /\
      ((forall b, nx h' b = if p =? b then Some n else nx h b) -> (forall b, pv h' b = if n =? b then Some p else pv h b) -> ring h' r (l1 ++ l2)).
  Proof.
    intros Hnd Hr. pose proof (fun b => ring_alive h r (l1 ++ a :: l2) b Hr) as Hal. unfold ring in *. rewrite <- app_assoc in Hr. cbn [app] in Hr.
    destruct (l2 ++ [r]) as [|n t] eqn:Ht; [destruct l2; discriminate|].
    pose proof Hr as Hr0. rewrite linked_app in Hr. destruct Hr as (Hl&H1&H2&H3). apply linked_snoc in Hl. destruct Hl as (Hl&H4&H5).
    set (p := last l1 r) in *. exists p, n.
    assert (Hp : In p (r :: l1)) by apply last_in.
    assert (Hn : In n (l2 ++ [r])) by (rewrite Ht; now left).
    inversion Hnd as [|? ? Hnr Hnd']; subst.
    assert (Hap : p <> a). { intros Heq. destruct Hp as [Hp|Hp]; [apply Hnr; rewrite Hp, Heq; apply in_or_app; right; now left|].
      apply NoDup_remove_2 in Hnd'. apply Hnd', in_or_app. left. now rewrite <- Heq. }
    assert (Han : n <> a). { intros Heq. apply in_app_or in Hn. destruct Hn as [Hn|[Hn|[]]].
      - apply NoDup_remove_2 in Hnd'. apply Hnd', in_or_app. right. now rewrite <- Heq.
      - apply Hnr. rewrite Hn, Heq. apply in_or_app. right; now left. }
    assert (Ha1 : h p <> None).
    { apply Hal. destruct Hp as [Hp|Hp]; [now left|]. right. apply in_or_app. now left. }
    assert (Ha2 : h n <> None).
    { apply Hal. apply in_app_or in Hn. destruct Hn as [Hn|[Hn|[]]]; [|now left]. right. apply in_or_app. right. now right. }
    split; [exact H5|]. split; [exact H1|]. split; [exact Hap|]. split; [exact Han|]. split; [exact Ha1|]. split; [exact Ha2|].
    split; [exact Hp|]. split; [rewrite <- Ht; exact Hn|]. split; [unfold p; intros ->; reflexivity|].
    intros Hnx Hpv. rewrite <- app_assoc, Ht. rewrite linked_app, linked_snoc. fold p.
    assert (Hnp : forall b, In b l2 -> p <> b).
    { intros b Hb Heq. subst b. destruct Hp as [Hp|Hp]; [apply Hnr; rewrite Hp; apply in_or_app; right; now right|].
      apply NoDup_app_remove_middle in Hnd'. apply (NoDup_disj l1 l2 Hnd' p Hp Hb). }
    repeat split.
    - apply (linked_frame h); [| |exact Hl].
      + intros b Hb. rewrite Hnx. destruct (Nat.eqb_spec p b) as [<-|]; [|reflexivity]. exfalso. revert Hb. apply last_not_in.
        constructor; [intros Hi; apply Hnr, in_or_app; now left|]. apply NoDup_app_l in Hnd'. exact Hnd'.
      + intros b Hb. rewrite Hpv. destruct (Nat.eqb_spec n b) as [<-|]; [|reflexivity]. exfalso.
        apply in_app_or in Hn. destruct Hn as [Hn|[Hn|[]]].
        * apply NoDup_app_remove_middle in Hnd'. apply (NoDup_disj l1 l2 Hnd' n Hb Hn).
        * apply Hnr. rewrite Hn. apply in_or_app. now left.
    - rewrite Hnx, Nat.eqb_refl. reflexivity.
    - rewrite Hpv, Nat.eqb_refl. reflexivity.
    - apply (linked_frame h); [| |exact H3].
      + intros b Hb. rewrite Hnx. destruct (Nat.eqb_spec p b) as [<-|]; [|reflexivity]. exfalso. rewrite <- Ht in Hb. rewrite removelast_last in Hb. now apply (Hnp p Hb).
      + intros b Hb. rewrite Hpv. destruct (Nat.eqb_spec n b) as [<-|]; [|reflexivity]. exfalso.
        assert (Hnd2 : NoDup (l2 ++ [r])).
        { apply NoDup_app_r in Hnd'. inversion Hnd'; subst. apply NoDup_app_intro2; [assumption|constructor; [intros []|constructor]|].
          intros y Hy [<-|[]]. apply Hnr, in_or_app. right; now right. }
        rewrite Ht in Hnd2. inversion Hnd2; contradiction.
  Qed.

  (** put a link at the end *)
  Lemma append_ring h h' r l a : NoDup (a :: r :: l) -> ring h r l -> 
    exists p, pv h r = Some p /\ In p (r :: l) /\ h p <> None /\ h r <> None /\ p <> a /\
    ((forall b, b <> a -> nx h' b = if p =? b then Some a else nx h b) -> nx h' a = Some r ->
     (forall b, b <> a -> pv h' b = if r =? b then Some a else pv h b) -> pv h' a = Some p -> ring h' r (l ++ [a])).
  Proof.
    intros Hnd Hr. pose proof (ring_alive _ _ _ (last l r) Hr (last_in r l)) as Hal. pose proof (ring_alive _ _ _ r Hr (or_introl eq_refl)) as Har.
    unfold ring in Hr. apply linked_snoc in Hr. destruct Hr as (Hl&H1&H2). set (p := last l r) in *. exists p.
    inversion Hnd as [|? ? Hna Hnd']; subst. assert (Hp : In p (r :: l)) by apply last_in.
    assert (Hpa : p <> a) by (intros <-; contradiction).
    split; [exact H2|]. split; [exact Hp|]. split; [exact Hal|]. split; [exact Har|]. split; [exact Hpa|].
    intros Hn1 Hn2 Hp1 Hp2. unfold ring. rewrite <- app_assoc. cbn [app]. rewrite linked_app, linked_snoc. fold p. cbn [linked].
    assert (Hra : r <> a) by (intros <-; apply Hna; now left).
    repeat split; try assumption.
    - apply (linked_frame h); [| |exact Hl].
      + intros b Hb. rewrite Hn1 by (intros ->; apply Hna; now apply removelast_in). destruct (Nat.eqb_spec p b) as [<-|]; [|reflexivity]. exfalso. revert Hb. now apply last_not_in.
      + intros b Hb. rewrite Hp1 by (intros ->; apply Hna; now right). destruct (Nat.eqb_spec r b) as [<-|]; [|reflexivity]. inversion Hnd'; contradiction.
    - rewrite Hn1 by exact Hpa. now rewrite Nat.eqb_refl.
    - rewrite Hp1 by exact Hra. now rewrite Nat.eqb_refl.
  Qed.

  (** make the oldest link the root *)
  Lemma rotate_ring h r a l : ring h r (a :: l) -> ring h a (l ++ [r]).
  Proof.
    unfold ring. cbn [app linked]. intros (H1&H2&H3). rewrite <- app_assoc. cbn [app]. rewrite linked_app. split; [exact H3|]. cbn. auto.
  Qed.

  (** ** the representation *)
  Notation item := (nat * (K * V))%type.
  Definition ikey (x : item) : K := fst (snd x).
  Record inv (s : state) (L : list item) : Prop := {
    i_ring : ring (s_heap s) (s_root s) (map fst L);
    i_nd : NoDup (s_root s :: map fst L);
    i_kr : forall a k v, In (a, (k, v)) L -> kr (s_heap s) a = Some (Some k, Some v);
    i_cache : Permutation (s_cache s) (map (fun x => (ikey x, fst x)) L);
    i_keys : NoDup (map ikey L);
    i_fresh : forall a, In a (s_root s :: map fst L) -> a < s_fresh s }.

  Lemma cache_dict_ok s L : inv s L -> dict_ok (s_cache s).
  Proof.
    intros H. unfold dict_ok, dkeys. apply (Permutation_NoDup (l := map ikey L)); [|apply H].
    apply Permutation_sym. rewrite (Permutation_map fst (i_cache _ _ H)), map_map. reflexivity.
  Qed.
  Lemma cache_len s L : inv s L -> length (s_cache s) = length L.
  Proof. intros H. rewrite (Permutation_length (i_cache _ _ H)). apply map_length. Qed.
  Lemma cache_get s L k a : inv s L -> dget (s_cache s) k = Some a -> exists v L1 L2, L = L1 ++ (a, (k, v)) :: L2.
  Proof.
    intros H Hg. apply dget_In in Hg. apply (Permutation_in _ (i_cache _ _ H)) in Hg. apply in_map_iff in Hg. destruct Hg as ([a' [k' v]]&He&Hin).
    unfold ikey in He. cbn in He. injection He as -> ->. apply in_split in Hin. destruct Hin as (L1&L2&->). now exists v, L1, L2.
  Qed.
  Lemma cache_has s L k : inv s L -> dhas (s_cache s) k = true <-> In k (map ikey L).
  Proof.
    intros H. rewrite dhas_keys. unfold dkeys. rewrite (Permutation_map fst (i_cache _ _ H)), map_map. reflexivity.
  Qed.
  Lemma cache_none s L k : inv s L -> dget (s_cache s) k = None <-> ~ In k (map ikey L).
  Proof. intros H. rewrite <- (cache_has s L k H). unfold dhas. destruct (dget (s_cache s) k); split; congruence. Qed.
  Lemma ddel_perm (d : dict K nat) k a l1 l2 : dict_ok d -> Permutation d (l1 ++ (k, a) :: l2) -> Permutation (ddel d k) (l1 ++ l2).
  Proof.
    intros Hok H. assert (Hin : In (k, a) d) by (apply (Permutation_in _ (Permutation_sym H)), in_or_app; right; now left).
    assert (Hd : Permutation d ((k, a) :: ddel d k)).
    { clear H. induction d as [|[k' a'] d IH]; [contradiction|]. cbn [ddel]. destruct (keqb k' k) eqn:Hk.
      - apply keqb_eq in Hk. subst k'. destruct Hin as [Hin|Hin]; [injection Hin as ->; reflexivity|].
        exfalso. inversion Hok; subst. apply H1. apply (in_map fst) in Hin. exact Hin.
      - apply keqb_neq in Hk. destruct Hin as [Hin|Hin]; [congruence|]. inversion Hok; subst. rewrite (IH H2 Hin) at 1. apply perm_swap. }
    rewrite Hd in H. apply (Permutation_cons_app_inv _ _ H).
  Qed.
  Lemma dset_new (d : dict K nat) k a : dhas d k = false -> dset d k a = d ++ [(k, a)].
  Proof.
    unfold dhas. intros H. induction d as [|[k' a'] d IH]; [reflexivity|]. cbn in *. destruct (keqb k' k); [discriminate|]. f_equal. now apply IH.
  Qed.

  (** the abstract entries *)
  Lemma value_of_In (es : list (K * V)) k : value_of es k = None <-> ~ In k (map fst es).
  Proof.
    unfold value_of. induction es as [|[k' v] es IH]; cbn; [tauto|]. destruct (keqb k' k) eqn:Hk.
    - apply keqb_eq in Hk. split; [discriminate|tauto].
    - apply keqb_neq in Hk. rewrite IH. tauto.
  Qed.
  Lemma value_of_mid (es1 es2 : list (K * V)) k v : ~ In k (map fst es1) -> value_of (es1 ++ (k, v) :: es2) k = Some v.
  Proof.
    unfold value_of. induction es1 as [|[k' v'] es IH]; cbn; intros H; [now rewrite keqb_refl|]. destruct (keqb k' k) eqn:Hk; [apply keqb_eq in Hk; tauto|]. apply IH. tauto.
  Qed.
  Lemma without_not (es : list (K * V)) k : ~ In k (map fst es) -> without es k = es.
  Proof. unfold without. intros H. apply filter_all. intros [k' v] Hin. apply negb_true_iff, keqb_neq. cbn [fst]. intros Heq. apply H. apply (in_map fst) in Hin. cbn in Hin. congruence. Qed.
  Lemma without_mid (es1 es2 : list (K * V)) k v : ~ In k (map fst (es1 ++ es2)) -> without (es1 ++ (k, v) :: es2) k = es1 ++ es2.
  Proof.
    intros H. unfold without. rewrite filter_app. cbn. rewrite keqb_refl. cbn. rewrite <- filter_app. now apply without_not.
  Qed.
  Lemma keys_snd (L : list item) : map fst (map snd L) = map ikey L.
  Proof. rewrite map_map. reflexivity. Qed.

  Definition rel (s : state) (c : lru K V) : Prop := exists L, inv s L /\ entries c = map snd L /\ maxsize c = s_max s /\
    hits c = s_hits s /\ misses c = s_misses s /\ (0 < s_max s -> s_full s = (s_max s <=? length L)) /\ length L <= s_max s.

  Ltac upd := repeat match goal with
    | |- context [?a =? ?b] => destruct (Nat.eqb_spec a b); subst; try congruence
    end.

  Lemma init_rel n : rel (init n) (Lru [] n 0 0).
  Proof.
    exists []. split; [|cbn; repeat split; try reflexivity; try lia; destruct n; lia || reflexivity].
    split; cbn.
    - unfold ring. cbn. repeat split.
    - constructor; [intros []|constructor].
    - tauto.
    - constructor.
    - constructor.
    - intros a [<-|[]]. lia.
  Qed.

  (** lookup *)
  Lemma lookup_rel k s c : rel s c -> exists s', lookup k s = Ok (s', snd (use c k)) /\ rel s' (fst (use c k)).
  Proof.
    intros (L&HI&He&Hm&Hh&Hs&Hf&Hlen). unfold lookup, use. destruct (dget (s_cache s) k) as [a|] eqn:Hg.
    - destruct (cache_get s L k a HI Hg) as (v&L1&L2&->). pose proof (i_keys _ _ HI) as Hk. rewrite map_app in Hk. cbn [map] in Hk. change (ikey (a, (k, v))) with k in Hk.
      pose proof (NoDup_remove_2 _ _ _ Hk) as Hk2. rewrite <- map_app, <- keys_snd, map_app in Hk2.
      assert (Hk1 : ~ In k (map fst (map snd L1))) by (intros Hi; apply Hk2; rewrite map_app; apply in_or_app; now left).
      rewrite He, map_app. cbn [map snd]. rewrite value_of_mid by exact Hk1. rewrite without_mid by exact Hk2. cbn [fst snd].
      pose proof (i_ring _ _ HI) as Hr. pose proof (i_nd _ _ HI) as Hnd. rewrite map_app in Hr, Hnd. cbn [map fst] in Hr, Hnd.
      assert (Hu := fun h' => unlink_ring (s_heap s) h' (s_root s) (map fst L1) a (map fst L2) Hnd Hr).
      destruct (Hu (s_heap s)) as (p&n&Hp&Hn&Hpa&Hna&Hap&Han&Hpin&Hnin&_&_).
      destruct (hget_ok _ _ _ Hp) as (l&El&Hl&Elp). rewrite El. cbn [bind]. rewrite Elp.
      assert (Eln : l_next l = n) by (unfold nx in Hn; rewrite Hl in Hn; cbn in Hn; congruence). rewrite Eln.
      destruct (set_next_ok (s_heap s) p n Hap) as (hA&EA&A1&A2&A3). rewrite EA. cbn [bind].
      destruct (set_prev_ok hA n p) as (hB&EB&B1&B2&B3). { apply alive_pv. rewrite A2. now apply alive_pv. } rewrite EB. cbn [bind].
      assert (HrB : ring hB (s_root s) (map fst L1 ++ map fst L2)).
      { destruct (Hu hB) as (p'&n'&Hp'&Hn'&_&_&_&_&_&_&_&Hfin). rewrite Hp in Hp'. rewrite Hn in Hn'. injection Hp' as <-. injection Hn' as <-. apply Hfin.
        - intros b. rewrite B2, A1. reflexivity.
        - intros b. rewrite B1, A2. reflexivity. }
      assert (Hnd2 : NoDup (a :: s_root s :: map fst L1 ++ map fst L2)).
      { inversion Hnd as [|? ? H1 H2]; subst. pose proof (NoDup_remove_2 _ _ _ H2). constructor.
        - intros [Heq|Hi]; [apply H1; rewrite Heq; apply in_or_app; right; now left|contradiction].
        - constructor; [|exact (NoDup_remove_1 _ _ _ H2)]. intros Hi. apply H1. apply in_app_or in Hi. apply in_or_app. destruct Hi; [now left|right; now right]. }
      destruct (append_ring hB hB (s_root s) (map fst L1 ++ map fst L2) a Hnd2 HrB) as (q&Hq&Hqin&Haq&Har&Hqa&_).
      destruct (hget_ok _ _ _ Hq) as (r&Er&Hrr&Erp). rewrite Er. cbn [bind]. rewrite Erp.
      assert (HrA : s_root s <> a). { intros Heq. apply NoDup_cons_iff in Hnd2. destruct Hnd2 as [Hx _]. apply Hx. left. exact Heq. }
      destruct (set_next_ok hB q a Haq) as (hC&EC&C1&C2&C3). rewrite EC. cbn [bind].
      destruct (set_prev_ok hC (s_root s) a) as (hD&ED&D1&D2&D3). { apply alive_pv. rewrite C2. now apply alive_pv. } rewrite ED. cbn [bind].
      assert (Hala : hD a <> None).
      { apply alive_nx. rewrite D2, C1. destruct (q =? a); [congruence|]. rewrite B2, A1. destruct (p =? a); [congruence|]. congruence. }
      destruct (set_prev_ok hD a q Hala) as (hE&EE&E1&E2&E3). rewrite EE. cbn [bind].
      destruct (set_next_ok hE a (s_root s)) as (hF&EF&F1&F2&F3). { apply alive_pv. rewrite E1, Nat.eqb_refl. congruence. } rewrite EF. cbn [bind].
      assert (Hv : l_res l = Some v).
      { pose proof (i_kr _ _ HI a k v ltac:(apply in_or_app; right; now left)) as H. unfold kr in H. rewrite Hl in H. cbn in H. congruence. }
      rewrite Hv. eexists. split; [reflexivity|]. exists ((L1 ++ L2) ++ [(a, (k, v))]). split.
      + split; cbn [s_heap s_root s_cache s_fresh].
        * rewrite map_app, map_app. cbn [map fst].
          destruct (append_ring hB hF (s_root s) (map fst L1 ++ map fst L2) a Hnd2 HrB) as (q'&Hq'&_&_&_&_&Hfin). rewrite Hq in Hq'. injection Hq' as <-.
          apply Hfin.
          -- intros b Hb. rewrite F1, E2, D2, C1. destruct (Nat.eqb_spec a b); [congruence|]. reflexivity.
          -- rewrite F1, Nat.eqb_refl. reflexivity.
          -- intros b Hb. rewrite F2, E1, D1, C2. destruct (Nat.eqb_spec a b); [congruence|]. reflexivity.
          -- rewrite F2, E1, Nat.eqb_refl. reflexivity.
        * rewrite !map_app. cbn [map fst]. inversion Hnd2 as [|? ? H1 H2]; subst.
          apply (Permutation_NoDup (l := a :: s_root s :: map fst L1 ++ map fst L2)); [|exact Hnd2].
          change (a :: s_root s :: map fst L1 ++ map fst L2) with ([a] ++ (s_root s :: map fst L1 ++ map fst L2)).
          rewrite (Permutation_app_comm [a]). reflexivity.
        * intros b k' v' Hin. rewrite F3, E3, D3, C3, B3, A3. apply (i_kr _ _ HI). apply in_app_or in Hin. destruct Hin as [Hin|[Hin|[]]].
          -- apply in_app_or in Hin. apply in_or_app. destruct Hin; [now left|right; now right].
          -- rewrite <- Hin. apply in_or_app. right; now left.
        * rewrite (i_cache _ _ HI). apply Permutation_map. rewrite <- app_assoc. apply Permutation_app_head. apply Permutation_cons_append.
        * apply (Permutation_NoDup (l := map ikey (L1 ++ (a, (k, v)) :: L2))); [|apply HI]. apply Permutation_map. rewrite <- app_assoc. apply Permutation_app_head. apply Permutation_cons_append.
        * intros b Hb. apply (i_fresh _ _ HI). destruct Hb as [Hb|Hb]; [now left|right]. rewrite !map_app in *. cbn [map] in *. apply in_app_or in Hb. apply in_or_app.
          destruct Hb as [Hb|[Hb|[]]]; [|right; now left]. apply in_app_or in Hb. destruct Hb; [now left|right; now right].
      + cbn [entries maxsize hits misses s_max s_hits s_misses s_full]. split; [now rewrite !map_app|]. rewrite app_length in *. cbn [length] in *. rewrite app_length.
        split; [exact Hm|]. split; [congruence|]. split; [exact Hs|]. replace (length L1 + length L2 + 1) with (length L1 + S (length L2)) by lia. split; assumption.
    - assert (Hv : value_of (entries c) k = None). { rewrite He. apply value_of_In. rewrite keys_snd. now apply (cache_none s L k HI). }
      rewrite Hv. cbn [fst snd]. eexists. split; [reflexivity|]. exists L. split; [destruct HI; now split|]. cbn. repeat split; try assumption. congruence.
  Qed.

  Lemma ring_frame h h' r l : (forall b, In b (r :: l) -> nx h' b = nx h b) -> (forall b, In b (r :: l) -> pv h' b = pv h b) -> ring h r l -> ring h' r l.
  Proof.
    intros Hn Hp. unfold ring. apply linked_frame.
    - intros b Hb. apply Hn. change (r :: l ++ [r]) with ((r :: l) ++ [r]) in Hb. now rewrite removelast_last in Hb.
    - intros b Hb. apply Hp. apply in_app_or in Hb. destruct Hb as [Hb|[<-|[]]]; [now right|now left].
  Qed.

  (** insert *)
  Lemma insert_rel k v s c : rel s c -> 0 < s_max s -> exists s', insert k v s = Ok s' /\ rel s' (add c k v).
  Proof.
    intros (L&HI&He&Hm&Hh&Hs&Hf&Hlen) Hpos. specialize (Hf Hpos). unfold insert, add. destruct (dhas (s_cache s) k) eqn:Hd.
    { assert (Hv : value_of (entries c) k <> None).
      { rewrite He. rewrite value_of_In, keys_snd. intros Hn. apply Hn. now apply (cache_has s L k HI). }
      destruct (value_of (entries c) k); [|congruence]. exists s. split; [reflexivity|]. exists L. split; [exact HI|]. repeat split; try assumption. now intros _. }
    assert (Hnk : ~ In k (map ikey L)) by (rewrite <- (cache_has s L k HI), Hd; discriminate).
    assert (Hv : value_of (entries c) k = None) by (rewrite He; apply value_of_In; now rewrite keys_snd).
    rewrite Hv, He, Hm. destruct (s_full s) eqn:Hfull.
    - symmetry in Hf. apply Nat.leb_le in Hf. destruct L as [|[a1 [k1 v1]] L]; [cbn in Hf; lia|].
      pose proof (i_ring _ _ HI) as Hr. pose proof (i_nd _ _ HI) as Hnd. cbn [map fst] in Hr, Hnd.
      pose proof (ring_alive _ _ _ _ Hr (or_introl eq_refl)) as Har. pose proof (ring_alive _ _ _ a1 Hr ltac:(right; now left)) as Ha1.
      destruct (set_kr_ok (s_heap s) (s_root s) (Some k) (Some v) Har) as (hA&EA&A1&A2&A3). rewrite EA. cbn [bind].
      assert (Hn : nx hA (s_root s) = Some a1) by (rewrite A2; apply Hr).
      unfold hget at 1. destruct (hA (s_root s)) as [o|] eqn:Ho; [|unfold nx in Hn; rewrite Ho in Hn; discriminate]. cbn [bind].
      assert (Hon : l_next o = a1) by (unfold nx in Hn; rewrite Ho in Hn; cbn in Hn; congruence). rewrite Hon.
      assert (Hra : s_root s <> a1) by (intros Heq; apply NoDup_cons_iff in Hnd; destruct Hnd as [Hx _]; apply Hx; now left).
      assert (Hkr : kr hA a1 = Some (Some k1, Some v1)).
      { rewrite A3. destruct (Nat.eqb_spec (s_root s) a1); [contradiction|]. apply (i_kr _ _ HI). now left. }
      unfold hget at 1. destruct (hA a1) as [r1|] eqn:Hr1; [|unfold kr in Hkr; rewrite Hr1 in Hkr; discriminate]. cbn [bind].
      destruct (set_kr_ok hA a1 None None) as (hB&EB&B1&B2&B3); [congruence|]. rewrite EB. cbn [bind].
      assert (Hlk : l_key r1 = Some k1) by (unfold kr in Hkr; rewrite Hr1 in Hkr; cbn in Hkr; congruence). rewrite Hlk.
      assert (Hd1 : dhas (s_cache s) k1 = true) by (apply (cache_has s _ k1 HI); now left). rewrite Hd1.
      eexists. split; [reflexivity|]. exists (L ++ [(s_root s, (k, v))]).
      assert (Hdok := cache_dict_ok s _ HI).
      assert (Hperm : Permutation (ddel (s_cache s) k1) (map (fun x => (ikey x, fst x)) L)).
      { pose proof (i_cache _ _ HI) as Hp. cbn [map] in Hp. change (ikey (a1, (k1, v1)), fst (a1, (k1, v1))) with (k1, a1) in Hp. exact (ddel_perm _ k1 a1 [] _ Hdok Hp). }
      pose proof (i_keys _ _ HI) as Hk. cbn [map] in Hk. apply NoDup_cons_iff in Hk. destruct Hk as [Hk1 Hk2].
      split.
      + split; cbn [s_heap s_root s_cache s_fresh].
        * rewrite map_app. cbn [map fst]. apply rotate_ring. eapply ring_frame; [| |exact Hr]; intros b _; [now rewrite B2|now rewrite B1].
        * rewrite map_app. cbn [map fst]. apply (Permutation_NoDup (l := s_root s :: a1 :: map fst L)); [|exact Hnd].
          rewrite perm_swap. constructor. apply Permutation_cons_append.
        * intros b k' v' Hin. rewrite B3. destruct (Nat.eqb_spec a1 b) as [<-|Hne].
          { exfalso. apply in_app_or in Hin. destruct Hin as [Hin|[Hin|[]]].
            - apply (in_map fst) in Hin. cbn in Hin. apply NoDup_cons_iff in Hnd. destruct Hnd as [_ Hnd]. apply NoDup_cons_iff in Hnd. now apply Hnd.
            - injection Hin as H1 _ _. contradiction. }
          rewrite A3. apply in_app_or in Hin. destruct Hin as [Hin|[Hin|[]]].
          { destruct (Nat.eqb_spec (s_root s) b) as [<-|_]; [|apply (i_kr _ _ HI); now right].
            exfalso. apply (in_map fst) in Hin. cbn in Hin. apply NoDup_cons_iff in Hnd. apply Hnd. now right. }
          injection Hin as <- <- <-. now rewrite Nat.eqb_refl.
        * rewrite dset_new.
          -- rewrite map_app. cbn [map]. change (ikey (s_root s, (k, v)), fst (s_root s, (k, v))) with (k, s_root s). now apply Permutation_app_tail.
          -- destruct (dhas (ddel (s_cache s) k1) k) eqn:Hdd; [|reflexivity]. exfalso. apply dhas_keys in Hdd. unfold dkeys in Hdd.
             rewrite (Permutation_map fst Hperm), map_map in Hdd. apply Hnk. now right.
        * rewrite map_app. cbn [map]. change (ikey (s_root s, (k, v))) with k. apply (Permutation_NoDup (l := k :: map ikey L)); [apply Permutation_cons_append|].
          constructor; [|exact Hk2]. intros Hi. apply Hnk. now right.
        * intros b Hb. apply (i_fresh _ _ HI). cbn [map fst]. rewrite map_app in Hb. cbn [map fst] in Hb. destruct Hb as [<-|Hb]; [right; now left|].
          apply in_app_or in Hb. destruct Hb as [Hb|[<-|[]]]; [right; now right|now left].
      + cbn [entries maxsize hits misses s_max s_hits s_misses s_full]. cbn [length] in *. rewrite app_length. cbn [length].
        split; [|repeat split; try assumption; [intros _; symmetry; apply Nat.leb_le; lia|lia]].
        unfold newest. rewrite app_length, map_length. cbn [length map snd]. replace (S (length L) + 1 - s_max s) with 1 by lia. cbn [app skipn]. now rewrite map_app.
    - symmetry in Hf. apply Nat.leb_gt in Hf.
      pose proof (i_ring _ _ HI) as Hr. pose proof (i_nd _ _ HI) as Hnd.
      set (a := s_fresh s). assert (Hfr : ~ In a (s_root s :: map fst L)) by (intros Hi; apply (i_fresh _ _ HI) in Hi; unfold a in Hi; lia).
      assert (Hnd2 : NoDup (a :: s_root s :: map fst L)) by now constructor.
      assert (Hap := fun h' => append_ring (s_heap s) h' (s_root s) (map fst L) a Hnd2 Hr).
      destruct (Hap (s_heap s)) as (q&Hq&Hqin&Haq&Har&Hqa&_).
      destruct (hget_ok _ _ _ Hq) as (r&Er&Hrr&Erp). rewrite Er. cbn [bind]. rewrite Erp.
      set (h0 := hset (s_heap s) a (Some (Link q (s_root s) (Some k) (Some v)))).
      assert (H0 : forall b, b <> a -> h0 b = s_heap s b) by (intros b Hb; unfold h0, hset; destruct (Nat.eqb_spec a b); congruence).
      assert (H0a : h0 a = Some (Link q (s_root s) (Some k) (Some v))) by (unfold h0, hset; now rewrite Nat.eqb_refl).
      assert (Hra : s_root s <> a) by (intros Heq; apply Hfr; left; exact Heq).
      clearbody h0. destruct (set_next_ok h0 q a) as (hC&EC&C1&C2&C3); [now rewrite H0|]. rewrite EC. cbn [bind].
      destruct (set_prev_ok hC (s_root s) a) as (hD&ED&D1&D2&D3). { apply alive_pv. rewrite C2. apply alive_pv. now rewrite H0. } rewrite ED. cbn [bind].
      eexists. split; [reflexivity|]. exists (L ++ [(a, (k, v))]).
      assert (Hnew : dset (s_cache s) k a = s_cache s ++ [(k, a)]) by now apply dset_new.
      split.
      + split; cbn [s_heap s_root s_cache s_fresh].
        * rewrite map_app. cbn [map fst]. destruct (Hap hD) as (q'&Hq'&_&_&_&_&Hfin). rewrite Hq in Hq'. injection Hq' as <-. apply Hfin.
          -- intros b Hb. rewrite D2, C1. destruct (q =? b); [reflexivity|]. unfold nx. now rewrite H0.
          -- rewrite D2, C1. destruct (Nat.eqb_spec q a); [contradiction|]. unfold nx. now rewrite H0a.
          -- intros b Hb. rewrite D1, C2. destruct (s_root s =? b); [reflexivity|]. unfold pv. now rewrite H0.
          -- rewrite D1, C2. destruct (Nat.eqb_spec (s_root s) a); [contradiction|]. unfold pv. now rewrite H0a.
        * rewrite map_app. cbn [map fst]. apply (Permutation_NoDup (l := a :: s_root s :: map fst L)); [|exact Hnd2].
          change (s_root s :: map fst L ++ [a]) with ((s_root s :: map fst L) ++ [a]). apply Permutation_cons_append.
        * intros b k' v' Hin. rewrite D3, C3. apply in_app_or in Hin. destruct Hin as [Hin|[Hin|[]]].
          -- unfold kr. rewrite H0; [exact (i_kr _ _ HI b k' v' Hin)|]. intros ->. apply Hfr. right. apply (in_map fst) in Hin. exact Hin.
          -- injection Hin as <- <- <-. unfold kr. now rewrite H0a.
        * fold a. rewrite Hnew, map_app. cbn [map]. apply Permutation_app_tail. apply HI.
        * rewrite map_app. cbn [map]. change (ikey (a, (k, v))) with k. apply (Permutation_NoDup (l := k :: map ikey L)); [apply Permutation_cons_append|].
          constructor; [exact Hnk|apply HI].
        * intros b Hb. assert (Hb' : In b (s_root s :: map fst L) \/ b = a).
          { rewrite map_app in Hb. cbn [map fst] in Hb. destruct Hb as [Hb|Hb]; [left; now left|]. apply in_app_or in Hb. destruct Hb as [Hb|[Hb|[]]]; [left; now right|now right]. }
          destruct Hb' as [Hb'| ->]; [apply (i_fresh _ _ HI) in Hb'; fold a in Hb'; lia|lia].
      + cbn [entries maxsize hits misses s_max s_hits s_misses s_full]. rewrite app_length. cbn [length].
        split; [|repeat split; try assumption; [|lia]].
        * unfold newest. rewrite app_length, map_length. cbn [length]. replace (length L + 1 - s_max s) with 0 by lia. cbn [skipn]. now rewrite map_app.
        * intros _. fold a. rewrite Hnew, app_length, (cache_len s L HI). reflexivity.
  Qed.

  (** removal *)
  Lemma remove_inv s L1 a k v L2 hB hits' misses' full' max' : inv s (L1 ++ (a, (k, v)) :: L2) ->
    ring hB (s_root s) (map fst L1 ++ map fst L2) -> (forall b, kr hB b = kr (s_heap s) b) ->
    inv (State (hset hB a None) (ddel (s_cache s) k) (s_root s) hits' misses' full' max' (s_fresh s)) (L1 ++ L2).
  Proof.
    intros HI Hr Hkr. pose proof (i_nd _ _ HI) as Hnd. rewrite map_app in Hnd. cbn [map fst] in Hnd.
    apply NoDup_cons_iff in Hnd. destruct Hnd as [N1 N2]. pose proof (NoDup_remove_2 _ _ _ N2) as N3. pose proof (NoDup_remove_1 _ _ _ N2) as N4.
    assert (Hra : a <> s_root s) by (intros Heq; apply N1; rewrite <- Heq; apply in_or_app; right; now left).
    assert (Ha : forall b, In b (s_root s :: map fst L1 ++ map fst L2) -> (a =? b) = false).
    { intros b Hb. apply Nat.eqb_neq. intros <-. destruct Hb as [Hb|Hb]; [now apply Hra|contradiction]. }
    split; cbn [s_heap s_root s_cache s_fresh].
    - rewrite map_app. eapply ring_frame; [| |exact Hr]; intros b Hb; unfold nx, pv, hset; now rewrite Ha.
    - rewrite map_app. constructor; [|exact N4]. intros Hi. apply N1. apply in_app_or in Hi. apply in_or_app. destruct Hi; [now left|right; now right].
    - intros b k' v' Hin. assert (Hin' : In b (map fst L1 ++ map fst L2)) by (rewrite <- map_app; apply (in_map fst) in Hin; exact Hin).
      unfold kr, hset. rewrite Ha by now right. fold (kr hB b). rewrite Hkr. apply (i_kr _ _ HI). apply in_app_or in Hin. apply in_or_app. destruct Hin; [now left|right; now right].
    - rewrite map_app. apply (ddel_perm _ k a); [exact (cache_dict_ok _ _ HI)|]. pose proof (i_cache _ _ HI) as Hc. rewrite map_app in Hc. exact Hc.
    - pose proof (i_keys _ _ HI) as Hk. rewrite map_app in *. apply NoDup_remove_1 in Hk. exact Hk.
    - intros b Hb. apply (i_fresh _ _ HI). rewrite map_app in *. destruct Hb as [Hb|Hb]; [now left|right]. apply in_app_or in Hb. apply in_or_app. destruct Hb; [now left|right; now right].
  Qed.

  Lemma removed_rel s L1 a k v L2 hB c : inv s (L1 ++ (a, (k, v)) :: L2) ->
    ring hB (s_root s) (map fst L1 ++ map fst L2) -> (forall b, kr hB b = kr (s_heap s) b) ->
    maxsize c = s_max s -> hits c = s_hits s -> misses c = s_misses s -> entries c = map snd (L1 ++ L2) -> length (L1 ++ L2) <= s_max s ->
    rel (State (hset hB a None) (ddel (s_cache s) k) (s_root s) (s_hits s) (s_misses s) (s_max s <=? length (ddel (s_cache s) k)) (s_max s) (s_fresh s)) c.
  Proof.
    intros HI Hr Hkr Hm Hh Hs He Hlen. exists (L1 ++ L2). pose proof (remove_inv s L1 a k v L2 hB (s_hits s) (s_misses s) (s_max s <=? length (ddel (s_cache s) k)) (s_max s) HI Hr Hkr) as H.
    split; [exact H|]. cbn [s_max s_hits s_misses s_full]. repeat split; try assumption. intros _. f_equal. exact (cache_len _ _ H).
  Qed.

  Lemma pop_rel k fb s c f : rel s c -> exists s' r, step f (Pop k fb) s = (s', r) /\ lru_step f (Pop k fb) c = (fst (lru_step f (Pop k fb) c), r) /\ rel s' (fst (lru_step f (Pop k fb) c)).
  Proof.
    intros (L&HI&He&Hm&Hh&Hs&Hf&Hlen). cbn [step lru_step]. unfold pop. destruct (dget (s_cache s) k) as [a|] eqn:Hg.
    - destruct (cache_get s L k a HI Hg) as (v&L1&L2&->). pose proof (i_keys _ _ HI) as Hk. rewrite map_app in Hk. cbn [map] in Hk. change (ikey (a, (k, v))) with k in Hk.
      pose proof (NoDup_remove_2 _ _ _ Hk) as Hk2. rewrite <- map_app, <- keys_snd, map_app in Hk2.
      assert (Hk1 : ~ In k (map fst (map snd L1))) by (intros Hi; apply Hk2; rewrite map_app; apply in_or_app; now left).
      rewrite He, map_app. cbn [map snd]. rewrite value_of_mid by exact Hk1. rewrite without_mid by exact Hk2. cbn [fst snd].
      pose proof (i_ring _ _ HI) as Hr. pose proof (i_nd _ _ HI) as Hnd. rewrite map_app in Hr, Hnd. cbn [map fst] in Hr, Hnd.
      assert (Hu := fun h' => unlink_ring (s_heap s) h' (s_root s) (map fst L1) a (map fst L2) Hnd Hr).
      destruct (Hu (s_heap s)) as (p&n&Hp&Hn&Hpa&Hna&Hap&Han&Hpin&Hnin&_&_).
      destruct (hget_ok _ _ _ Hp) as (l&El&Hl&Elp). rewrite El. cbn [bind]. rewrite Elp.
      assert (Eln : l_next l = n) by (unfold nx in Hn; rewrite Hl in Hn; cbn in Hn; congruence). rewrite Eln.
      destruct (set_next_ok (s_heap s) p n Hap) as (hA&EA&A1&A2&A3). rewrite EA. cbn [bind].
      assert (Hp2 : pv hA a = Some p) by now rewrite A2.
      destruct (hget_ok _ _ _ Hp2) as (l2&El2&Hl2&Elp2). rewrite El2. cbn [bind]. rewrite Elp2.
      assert (Eln2 : l_next l2 = n).
      { assert (H : nx hA a = Some n) by (rewrite A1; destruct (Nat.eqb_spec p a); congruence). unfold nx in H. rewrite Hl2 in H. cbn in H. congruence. } rewrite Eln2.
      destruct (set_prev_ok hA n p) as (hB&EB&B1&B2&B3). { apply alive_pv. rewrite A2. now apply alive_pv. } rewrite EB. cbn [bind].
      assert (HrB : ring hB (s_root s) (map fst L1 ++ map fst L2)).
      { destruct (Hu hB) as (p'&n'&Hp'&Hn'&_&_&_&_&_&_&_&Hfin). rewrite Hp in Hp'. rewrite Hn in Hn'. injection Hp' as <-. injection Hn' as <-. apply Hfin.
        - intros b. rewrite B2, A1. reflexivity.
        - intros b. rewrite B1, A2. reflexivity. }
      assert (Hkr : kr hB a = Some (Some k, Some v)) by (rewrite B3, A3; apply (i_kr _ _ HI); apply in_or_app; right; now left).
      unfold hget at 1. destruct (hB a) as [l3|] eqn:Hl3; [|unfold kr in Hkr; rewrite Hl3 in Hkr; discriminate]. cbn [bind].
      unfold kr in Hkr. rewrite Hl3 in Hkr. cbn in Hkr. injection Hkr as Hk3 Hr3. rewrite Hk3, Hr3.
      assert (Hdh : dhas (s_cache s) k = true) by (unfold dhas; now rewrite Hg). rewrite Hdh.
      eexists _, _. split; [reflexivity|]. split; [reflexivity|].
      apply (removed_rel s L1 a k v L2 hB); try assumption.
      + intros b. now rewrite B3, A3.
      + cbn. now rewrite map_app.
      + rewrite app_length in *. cbn in Hlen. lia.
    - assert (Hv : value_of (entries c) k = None). { rewrite He. apply value_of_In. rewrite keys_snd. now apply (cache_none s L k HI). }
      rewrite Hv. destruct fb as [v|]; eexists _, _; (split; [reflexivity|]); (split; [reflexivity|]); exists L; repeat split; try apply HI; assumption.
  Qed.

  (** [cache_pop_oldest], also when there are too many entries *)
  Lemma pop_oldest_cons fb s a k v L : inv s ((a, (k, v)) :: L) ->
    exists hB, ring hB (s_root s) (map fst L) /\ (forall b, kr hB b = kr (s_heap s) b) /\
      pop_oldest fb s = Ok (State (hset hB a None) (ddel (s_cache s) k) (s_root s) (s_hits s) (s_misses s)
        (s_max s <=? length (ddel (s_cache s) k)) (s_max s) (s_fresh s), Some v).
  Proof.
    intros HI. unfold pop_oldest. pose proof (cache_len _ _ HI) as Hcl. destruct (s_cache s) as [|x cc] eqn:Hcc; [discriminate|]. rewrite <- Hcc in *. clear Hcl.
    pose proof (i_ring _ _ HI) as Hr. pose proof (i_nd _ _ HI) as Hnd. cbn [map fst] in Hr, Hnd.
    assert (Hu := fun h' => unlink_ring (s_heap s) h' (s_root s) [] a (map fst L) Hnd Hr).
    destruct (Hu (s_heap s)) as (p&n&Hp&Hn&Hpa&Hna&Hap&Han&Hpin&Hnin&Hpr&_). rewrite (Hpr eq_refl) in *. clear Hpr Hpin.
    assert (Hrn : nx (s_heap s) (s_root s) = Some a) by apply Hr.
    unfold hget at 1. destruct (s_heap s (s_root s)) as [r|] eqn:Er; [|congruence]. cbn [bind].
    assert (Ern : l_next r = a) by (unfold nx in Hrn; rewrite Er in Hrn; cbn in Hrn; congruence). rewrite Ern.
    destruct (hget_ok _ _ _ Hp) as (l&El&Hl&Elp). rewrite El. cbn [bind].
    assert (Eln : l_next l = n) by (unfold nx in Hn; rewrite Hl in Hn; cbn in Hn; congruence). rewrite Eln.
    destruct (set_prev_ok (s_heap s) n (s_root s) Han) as (hA&EA&A1&A2&A3). rewrite EA. cbn [bind].
    assert (Hna2 : nx hA a = Some n) by (rewrite A2; exact Hn).
    unfold hget at 1. destruct (hA a) as [l2|] eqn:Hl2; [|unfold nx in Hna2; rewrite Hl2 in Hna2; discriminate]. cbn [bind].
    assert (Eln2 : l_next l2 = n) by (unfold nx in Hna2; rewrite Hl2 in Hna2; cbn in Hna2; congruence). rewrite Eln2.
    destruct (set_next_ok hA (s_root s) n) as (hB&EB&B1&B2&B3). { apply alive_nx. rewrite A2. congruence. } rewrite EB. cbn [bind].
    assert (HrB : ring hB (s_root s) (map fst L)).
    { destruct (Hu hB) as (p'&n'&Hp'&Hn'&_&_&_&_&_&_&_&Hfin). rewrite Hp in Hp'. rewrite Hn in Hn'. injection Hp' as <-. injection Hn' as <-. apply Hfin.
      - intros b. rewrite B1, A2. reflexivity.
      - intros b. rewrite B2, A1. reflexivity. }
    assert (Hkr : kr hB a = Some (Some k, Some v)) by (rewrite B3, A3; apply (i_kr _ _ HI); now left).
    unfold hget at 1. destruct (hB a) as [l3|] eqn:Hl3; [|unfold kr in Hkr; rewrite Hl3 in Hkr; discriminate]. cbn [bind].
    unfold kr in Hkr. rewrite Hl3 in Hkr. cbn in Hkr. injection Hkr as Hk3 Hr3. rewrite Hk3, Hr3.
    assert (Hdh : dhas (s_cache s) k = true) by (apply (cache_has _ _ k HI); now left). rewrite Hdh.
    exists hB. split; [exact HrB|]. split; [intros b; now rewrite B3, A3|]. rewrite Hcc. reflexivity.
  Qed.

  Lemma clear_rel s c : rel s c -> rel (clear s) (Lru [] (maxsize c) 0 0).
  Proof.
    intros (L&HI&He&Hm&Hh&Hs&Hf&Hlen). exists []. split.
    - unfold clear. split; cbn [s_heap s_root s_cache s_fresh map].
      + unfold ring. cbn. unfold nx, pv, hset. rewrite Nat.eqb_refl. cbn. auto.
      + constructor; [intros []|constructor].
      + intros a k v [].
      + constructor.
      + constructor.
      + intros a [<-|[]]. apply (i_fresh _ _ HI). now left.
    - cbn. repeat split; try assumption; try lia.
  Qed.

  Definition same_but_full (s s' : state) : Prop := s_hits s = s_hits s' /\ s_misses s = s_misses s' /\ s_max s = s_max s'.
  Lemma shrink_ok fuel : forall s L, inv s L -> length L <= fuel ->
    exists s', shrink fuel s = Ok s' /\ inv s' (skipn (length L - s_max s) L) /\ same_but_full s s'.
  Proof.
    induction fuel as [|fuel IH]; intros s L HI Hlen.
    - destruct L; [|cbn in Hlen; lia]. exists s. cbn [shrink]. rewrite (cache_len s [] HI). cbn. destruct (s_max s); cbn; split; auto; split; auto; repeat split.
    - cbn [shrink]. rewrite (cache_len s L HI). destruct (Nat.ltb_spec (s_max s) (length L)) as [Hlt|Hge].
      + destruct L as [|[a [k v]] L]; [cbn in Hlt; lia|]. destruct (pop_oldest_cons None s a k v L HI) as (hB&H1&H2&H3). rewrite H3. cbn [bind].
        set (s1 := State _ _ _ _ _ _ _ _). assert (HI1 : inv s1 L) by exact (remove_inv s [] a k v L hB _ _ _ _ HI H1 H2).
        destruct (IH s1 L HI1 ltac:(cbn in Hlen; lia)) as (s'&E1&E2&E3). exists s'. split; [exact E1|].
        change (s_max s1) with (s_max s) in E2. split; [|exact E3]. cbn [length] in *. replace (S (length L) - s_max s) with (S (length L - s_max s)) by lia. exact E2.
      + exists s. split; [reflexivity|]. replace (length L - s_max s) with 0 by lia. split; [exact HI|]. repeat split.
  Qed.
  Lemma set_maxsize_rel n s c : rel s c -> exists s', set_maxsize n s = Ok s' /\ rel s' (Lru (newest n (entries c)) n (hits c) (misses c)).
  Proof.
    intros (L&HI&He&Hm&Hh&Hs&Hf&Hlen). unfold set_maxsize. set (s0 := State _ _ _ _ _ _ _ _).
    assert (HI0 : inv s0 L) by (destruct HI; now split). cbv zeta.
    change (s_cache s0) with (s_cache s). rewrite (cache_len s L HI).
    destruct (shrink_ok (length L) s0 L HI0 (le_n _)) as (s'&E1&E2&E3&E4&E5). rewrite E1. cbn [bind]. change (s_max s0) with n in *. change (s_hits s0) with (s_hits s) in *. change (s_misses s0) with (s_misses s) in *.
    set (L' := skipn (length L - n) L) in *.
    eexists. split; [reflexivity|]. exists L'. split; [destruct E2; now split|]. cbn [s_max s_hits s_misses s_full entries maxsize hits misses].
    assert (HL' : length L' <= n) by (unfold L'; rewrite skipn_length; lia).
    rewrite <- E5. split; [|repeat split; try congruence; try assumption].
    - unfold newest. rewrite He, map_length. unfold L'. clear. generalize (length L - n) as m. intros m. revert L. induction m; intros L; [reflexivity|]. destruct L; [reflexivity|]. cbn. apply IHm.
    - intros _. f_equal. exact (cache_len _ _ E2).
  Qed.

  Lemma newest_all (es : list (K * V)) n : length es <= n -> newest n es = es.
  Proof. intros H. unfold newest. now replace (length es - n) with 0 by lia. Qed.

  (** every step *)
  Definition allowed (o : op K V) (s : state) : Prop := match o with Insert _ _ => 0 < s_max s | _ => True end.
  Lemma use_max (c : lru K V) k : maxsize (fst (use c k)) = maxsize c.
  Proof. unfold use. destruct (value_of (entries c) k); reflexivity. Qed.
  Lemma add_zero (c : lru K V) k v : maxsize c = 0 -> length (entries c) <= 0 -> add c k v = c.
  Proof.
    intros Hm Hl. destruct c as [es m h mi]. cbn in *. destruct es; [|cbn in Hl; lia]. unfold add. cbn. subst m. reflexivity.
  Qed.
  Lemma rel_len s c : rel s c -> length (entries c) <= maxsize c.
  Proof. intros (L&HI&He&Hm&_&_&_&Hl). rewrite He, map_length, Hm. exact Hl. Qed.
  Lemma rel_max s c : rel s c -> maxsize c = s_max s.
  Proof. intros (L&HI&He&Hm&_). exact Hm. Qed.

  Lemma step_rel f o s c : rel s c -> allowed o s -> exists s' c' r, step f o s = (s', r) /\ lru_step f o c = (c', r) /\ rel s' c'.
  Proof.
    intros HR Ha. destruct o as [k|k v|k u|k fb|fb| |n|k|k v].
    - cbn [step lru_step]. unfold call. destruct (lookup_rel k s c HR) as (s1&E1&R1). destruct (use c k) as [c1 o] eqn:Hu. cbn [fst snd] in *. rewrite E1.
      destruct o as [v|]; [eexists _, _, _; split; [reflexivity|]; split; [reflexivity|exact R1]|].
      destruct (f k) as [v|e]; [|eexists _, _, _; split; [reflexivity|]; split; [reflexivity|exact R1]].
      destruct (Nat.ltb_spec 0 (s_max s1)) as [Hp|Hp].
      + destruct (insert_rel k v s1 c1 R1 Hp) as (s2&E2&R2). rewrite E2. eexists _, _, _. split; [reflexivity|]. split; [reflexivity|exact R2].
      + pose proof (rel_max _ _ R1) as Hm. rewrite add_zero by (try (pose proof (rel_len _ _ R1)); lia). eexists _, _, _. split; [reflexivity|]. split; [reflexivity|exact R1].
    - cbn [step lru_step]. unfold cache_set. destruct (Nat.ltb_spec 0 (s_max s)) as [Hp|Hp].
      + destruct (insert_rel k v s c HR Hp) as (s2&E2&R2). rewrite E2. eexists _, _, _. split; [reflexivity|]. split; [reflexivity|exact R2].
      + pose proof (rel_max _ _ HR) as Hm. rewrite add_zero by (try (pose proof (rel_len _ _ HR)); lia). eexists _, _, _. split; [reflexivity|]. split; [reflexivity|exact HR].
    - cbn [step lru_step]. unfold peek. destruct HR as (L&HI&He&Hm&Hh&Hs&Hf&Hlen). destruct (dget (s_cache s) k) as [a|] eqn:Hg.
      + destruct (cache_get s L k a HI Hg) as (v&L1&L2&EL). subst L. pose proof (i_keys _ _ HI) as Hk. rewrite map_app in Hk. cbn [map] in Hk. change (ikey (a, (k, v))) with k in Hk.
        pose proof (NoDup_remove_2 _ _ _ Hk) as Hk2. rewrite <- map_app, <- keys_snd, map_app in Hk2.
        assert (Hk1 : ~ In k (map fst (map snd L1))) by (intros Hi; apply Hk2; rewrite map_app; apply in_or_app; now left).
        assert (Hvo : value_of (entries c) k = Some v) by (rewrite He, map_app; now apply value_of_mid). rewrite Hvo.
        pose proof (i_kr _ _ HI a k v ltac:(apply in_or_app; right; now left)) as Hkr. unfold kr in Hkr. unfold hget. destruct (s_heap s a) as [l|]; [|discriminate]. cbn [bind].
        cbn in Hkr. injection Hkr as _ Hres. rewrite Hres. eexists _, _, _. split; [reflexivity|]. split; [reflexivity|].
        destruct u; exists (L1 ++ (a, (k, v)) :: L2); (split; [destruct HI; now split|]); cbn; repeat split; try assumption; lia.
      + assert (Hv : value_of (entries c) k = None). { rewrite He. apply value_of_In. rewrite keys_snd. now apply (cache_none s L k HI). }
        rewrite Hv. eexists _, _, _. split; [reflexivity|]. split; [reflexivity|].
        destruct u; exists L; (split; [destruct HI; now split|]); cbn; repeat split; try assumption; lia.
    - destruct (pop_rel k fb s c f HR) as (s'&r&E1&E2&E3). exists s', (fst (lru_step f (Pop k fb) c)), r. split; [exact E1|]. split; [exact E2|exact E3].
    - cbn [step lru_step]. destruct HR as (L&HI&He&Hm&Hh&Hs&Hf&Hlen). rewrite He. destruct L as [|[a [k v]] L].
      + unfold pop_oldest. pose proof (cache_len _ _ HI) as Hcl. destruct (s_cache s) as [|x cc] eqn:Hcc; [|discriminate]. cbn [map].
        destruct fb; eexists _, _, _; (split; [reflexivity|]); (split; [reflexivity|]); exists []; repeat split; try apply HI; try assumption.
      + destruct (pop_oldest_cons fb s a k v L HI) as (hB&H1&H2&H3). rewrite H3. cbn [map snd]. eexists _, _, _. split; [reflexivity|]. split; [reflexivity|].
        apply (removed_rel s [] a k v L hB); try assumption; cbn; try reflexivity. cbn in Hlen. lia.
    - eexists _, _, _. split; [reflexivity|]. split; [reflexivity|]. now apply clear_rel.
    - cbn [step lru_step]. destruct (set_maxsize_rel n s c HR) as (s'&E1&R1). rewrite E1. eexists _, _, _. split; [reflexivity|]. split; [reflexivity|exact R1].
    - cbn [step lru_step]. destruct (lookup_rel k s c HR) as (s1&E1&R1). rewrite E1. destruct (use c k) as [c1 o]. cbn [fst snd] in *.
      eexists _, _, _. split; [reflexivity|]. split; [reflexivity|exact R1].
    - cbn [step lru_step]. destruct (insert_rel k v s c HR Ha) as (s2&E2&R2). rewrite E2. eexists _, _, _. split; [reflexivity|]. split; [reflexivity|exact R2].
  Qed.

  (** ** histories *)
  Lemma step_max f o (c : lru K V) : maxsize (fst (lru_step f o c)) = match o with SetMaxsize n => n | _ => maxsize c end.
  Proof.
    assert (Hadd : forall (c : lru K V) k v, maxsize (add c k v) = maxsize c) by (intros c0 k v; unfold add; destruct (value_of (entries c0) k); reflexivity).
    destruct o as [k|k v|k u|k fb|fb| |n|k|k v]; cbn [lru_step]; try reflexivity; try apply Hadd.
    - pose proof (use_max c k) as H. destruct (use c k) as [c' [v|]]; [exact H|]. destruct (f k); [|exact H]. cbn [fst] in *. rewrite Hadd. exact H.
    - destruct u; reflexivity.
    - destruct (value_of (entries c) k), fb; reflexivity.
    - destruct (entries c) as [|[k v] es], fb; reflexivity.
    - pose proof (use_max c k) as H. destruct (use c k) as [c' v]. exact H.
  Qed.

  Lemma run_rel f ops : forall s c, rel s c -> (Forall no_interleaving ops \/ (Forall keeps_positive ops /\ 0 < s_max s)) ->
    exists s' c' rs, run f ops s = (s', rs) /\ lru_run f ops c = (c', rs) /\ rel s' c'.
  Proof.
    induction ops as [|o ops IH]; intros s c HR HO; [exists s, c, []; cbn; auto|].
    assert (Ha : allowed o s). { destruct HO as [HO|[HO Hp]]; [inversion HO; subst; destruct o; cbn in *; tauto|]. destruct o; cbn; auto. }
    destruct (step_rel f o s c HR Ha) as (s1&c1&r&E1&E2&R1).
    destruct (IH s1 c1 R1) as (s2&c2&rs&E3&E4&R2).
    { destruct HO as [HO|[HO Hp]]; [left; now inversion HO|right]. inversion HO as [|? ? Ho1 Ho2]; subst. split; [exact Ho2|].
      rewrite <- (rel_max _ _ R1). pose proof (step_max f o c) as Hm. rewrite E2 in Hm. cbn [fst] in Hm. rewrite Hm. destruct o; try (rewrite (rel_max _ _ HR); exact Hp). exact Ho1. }
    exists s2, c2, (r :: rs). cbn [run lru_run]. rewrite E1, E2, E3, E4. auto.
  Qed.

  (** transparency *)
  Definition all_correct (f : K -> res V) (c : lru K V) : Prop := forall k v, In (k, v) (entries c) -> f k = Ok v.
  Lemma value_of_found (es : list (K * V)) k v : value_of es k = Some v -> In (k, v) es.
  Proof.
    unfold value_of. destruct (find _ es) as [[k' v']|] eqn:Hf; [|discriminate]. intros H. injection H as <-. apply find_some in Hf. destruct Hf as [H1 H2]. cbn in H2. apply keqb_eq in H2. now subst.
  Qed.
  Lemma all_correct_add f c k v : all_correct f c -> f k = Ok v -> all_correct f (add c k v).
  Proof.
    intros Hc Hv. unfold add. destruct (value_of (entries c) k); [exact Hc|]. intros k' v' Hin. cbn in Hin. unfold newest in Hin. apply In_skipn in Hin. apply in_app_or in Hin.
    destruct Hin as [Hin|[Hin|[]]]; [now apply Hc|congruence].
  Qed.
  Lemma all_correct_use f c k : all_correct f c -> all_correct f (fst (use c k)) /\ (forall v, snd (use c k) = Some v -> f k = Ok v).
  Proof.
    intros Hc. unfold use. destruct (value_of (entries c) k) as [v|] eqn:Hv; cbn [fst snd].
    - apply value_of_found in Hv. split; [|intros w Hw; injection Hw as <-; now apply Hc]. intros k' v' Hin. cbn in Hin. apply in_app_or in Hin. destruct Hin as [Hin|[Hin|[]]].
      + apply filter_In in Hin. now apply Hc.
      + injection Hin as <- <-. now apply Hc.
    - split; [exact Hc|discriminate].
  Qed.
  Lemma step_correct f o c : all_correct f c -> correct_sets f o ->
    all_correct f (fst (lru_step f o c)) /\
    match o with Call k => snd (lru_step f o c) = answer (f k)
               | Peek k _ | Lookup k => snd (lru_step f o c) = Ok None \/ snd (lru_step f o c) = answer (f k) | _ => True end.
  Proof.
    intros Hc Ho. destruct o as [k|k v|k u|k fb|fb| |n|k|k v]; cbn [lru_step].
    - pose proof (all_correct_use f c k Hc) as [H1 H2]. destruct (use c k) as [c' [v|]]; cbn [fst snd] in *.
      + split; [exact H1|]. rewrite (H2 v eq_refl). reflexivity.
      + destruct (f k) as [v|e] eqn:Hf; cbn; split; try reflexivity; [now apply all_correct_add|exact H1].
    - split; [|trivial]. now apply all_correct_add.
    - split; [destruct u; exact Hc|]. cbn. destruct (value_of (entries c) k) as [v|] eqn:Hv; [|now left]. right. apply value_of_found in Hv. rewrite (Hc _ _ Hv). reflexivity.
    - split; [|trivial]. destruct (value_of (entries c) k), fb; try exact Hc; intros k' v' Hin; cbn in Hin; apply filter_In in Hin; now apply Hc.
    - split; [|trivial]. destruct (entries c) as [|[k v] es] eqn:He, fb; try exact Hc; intros k' v' Hin; cbn in Hin; apply Hc; rewrite He; now right.
    - split; [|trivial]. intros k v [].
    - split; [|trivial]. intros k v Hin. cbn in Hin. unfold newest in Hin. apply In_skipn in Hin. now apply Hc.
    - pose proof (all_correct_use f c k Hc) as [H1 H2]. destruct (use c k) as [c' [v|]]; cbn [fst snd] in *; (split; [exact H1|]); [right; now rewrite (H2 v eq_refl)|now left].
    - split; [|trivial]. now apply all_correct_add.
  Qed.
  Lemma run_correct f ops : forall c, all_correct f c -> Forall (correct_sets f) ops ->
    forall i k, nth_error ops i = Some (Call k) -> nth_error (snd (lru_run f ops c)) i = Some (answer (f k)).
  Proof.
    induction ops as [|o ops IH]; intros c Hc HO i k Hi; [destruct i; discriminate|]. inversion HO as [|? ? Ho HO']; subst. cbn [lru_run].
    pose proof (step_correct f o c Hc Ho) as [S1 S2]. destruct (lru_step f o c) as [c1 r] eqn:E1. cbn [fst snd] in *. specialize (IH c1 S1 HO').
    destruct (lru_run f ops c1) as [c2 rs] eqn:E2. cbn [fst snd] in *. destruct i as [|i]; cbn in *; [|now apply IH]. injection Hi as ->. cbn in S2. congruence.
  Qed.
  Lemma run_correct_weak f ops : forall c, all_correct f c -> Forall (correct_sets f) ops ->
    forall i k, nth_error ops i = Some (Lookup k) -> nth_error (snd (lru_run f ops c)) i = Some (Ok None) \/ nth_error (snd (lru_run f ops c)) i = Some (answer (f k)).
  Proof.
    induction ops as [|o ops IH]; intros c Hc HO i k Hi; [destruct i; discriminate|]. inversion HO as [|? ? Ho HO']; subst. cbn [lru_run].
    pose proof (step_correct f o c Hc Ho) as [S1 S2]. destruct (lru_step f o c) as [c1 r] eqn:E1. cbn [fst snd] in *. specialize (IH c1 S1 HO').
    destruct (lru_run f ops c1) as [c2 rs] eqn:E2. cbn [fst snd] in *. destruct i as [|i]; cbn in *; [|now apply IH]. injection Hi as ->. cbn in S2. destruct S2 as [->| ->]; auto.
  Qed.

  (** the most recently used keys *)
  Lemma firstn_filter_neq (D : list K) k m : NoDup D ->
    firstn m (filter (fun j => negb (keqb k j)) D) =
    if existsb (keqb k) (firstn (S m) D) then filter (fun j => negb (keqb k j)) (firstn (S m) D) else firstn m D.
  Proof.
    revert m. induction D as [|x D IH]; intros m Hnd; [destruct m; reflexivity|]. apply NoDup_cons_iff in Hnd. destruct Hnd as [Hx Hnd].
    change (firstn (S m) (x :: D)) with (x :: firstn m D). cbn [filter existsb].
    assert (Hfil : forall l, ~ In x l -> filter (fun j => negb (keqb x j)) l = l).
    { intros l Hl. apply filter_all. intros j Hj. apply negb_true_iff, keqb_neq. intros Heq. apply Hl. congruence. }
    destruct (keqb k x) eqn:Hk; cbn [negb orb].
    - apply keqb_eq in Hk. subst x. rewrite !Hfil; auto. intros Hi. apply Hx. now apply In_firstn in Hi.
    - destruct m as [|m]; [reflexivity|]. rewrite !firstn_cons. rewrite IH by exact Hnd. destruct (existsb (keqb k) (firstn (S m) D)); reflexivity.
  Qed.
  Lemma distinct_NoDup (l : list K) : NoDup (distinct l).
  Proof.
    induction l as [|k l IH]; cbn; [constructor|]. constructor; [|now apply NoDup_filter]. rewrite filter_In. intros [_ H]. now rewrite keqb_refl in H.
  Qed.
  Lemma calls_keep f ks : forall c : lru K V, (forall k, In k ks -> is_ok (f k) = true) -> NoDup (map fst (entries c)) ->
    forall done, rev (map fst (entries c)) = firstn (maxsize c) (distinct (rev done)) ->
    rev (map fst (entries (fst (lru_run f (map Call ks) c)))) = firstn (maxsize c) (distinct (rev (done ++ ks))).
  Proof.
    induction ks as [|k ks IH]; intros c Hf Hndc done Hd; [cbn; now rewrite app_nil_r|].
    cbn [map lru_run]. set (st := lru_step f (Call k) c). destruct st as [c1 r] eqn:Est.
    assert (Hm : maxsize c1 = maxsize c) by (pose proof (step_max f (Call k) c) as H; fold st in H; rewrite Est in H; exact H).
    assert (Hgoal : rev (map fst (entries c1)) = firstn (maxsize c) (distinct (rev (done ++ [k])))).
    { rewrite rev_app_distr. cbn [rev app distinct]. set (D := distinct (rev done)) in *. assert (HD : NoDup D) by apply distinct_NoDup.
      specialize (Hf k (or_introl eq_refl)). unfold st in Est. cbn [lru_step] in Est. unfold use in Est. destruct (value_of (entries c) k) as [v|] eqn:Hv.
      - injection Est as <- _. cbn [entries]. assert (Hin : In k (rev (map fst (entries c)))).
        { apply in_rev. rewrite rev_involutive. apply value_of_found in Hv. apply (in_map fst) in Hv. exact Hv. }
        rewrite map_app. cbn [map fst]. rewrite rev_app_distr. cbn [rev app].
        assert (Hw : rev (map fst (without (entries c) k)) = filter (fun j => negb (keqb k j)) (rev (map fst (entries c)))).
        { unfold without. clear. induction (entries c) as [|[k' v] es IHe]; [reflexivity|]. cbn. rewrite filter_app. cbn. rewrite (keqb_sym k k').
          destruct (keqb k' k); cbn; [now rewrite app_nil_r|]. now rewrite IHe. }
        rewrite Hw, Hd in *. destruct (maxsize c) as [|m]; [contradiction|]. change (firstn (S m) (k :: filter (fun j => negb (keqb k j)) D)) with (k :: firstn m (filter (fun j => negb (keqb k j)) D)).
        rewrite firstn_filter_neq by exact HD. assert (He : existsb (keqb k) (firstn (S m) D) = true) by (apply existsb_exists; exists k; split; [exact Hin|apply keqb_refl]). now rewrite He.
      - destruct (f k) as [v|]; [|discriminate]. injection Est as <- _. unfold add. cbn [entries maxsize]. rewrite Hv. cbn [entries]. unfold newest.
        rewrite <- map_rev, <- firstn_rev. rewrite rev_app_distr. cbn [rev app]. rewrite <- firstn_map. cbn [map fst]. rewrite map_rev, Hd.
        destruct (maxsize c) as [|m]; [reflexivity|]. rewrite !firstn_cons. f_equal.
        rewrite firstn_filter_neq by exact HD. assert (He : existsb (keqb k) (firstn (S m) D) = false).
        { destruct (existsb (keqb k) (firstn (S m) D)) eqn:Hex; [|reflexivity]. exfalso. apply existsb_exists in Hex. destruct Hex as (j&Hj&Hkj). apply keqb_eq in Hkj. subst j.
          rewrite <- Hd in Hj. apply in_rev in Hj. now apply value_of_In in Hv. }
        rewrite He, firstn_firstn. f_equal. lia. }
    assert (Hnd1 : NoDup (map fst (entries c1))).
    { rewrite <- (rev_involutive (map fst (entries c1))). apply NoDup_rev. rewrite Hgoal. pose proof (distinct_NoDup (rev (done ++ [k]))) as H. rewrite <- (firstn_skipn (maxsize c)) in H. now apply NoDup_app_l in H. }
    specialize (IH c1 (fun j Hj => Hf j (or_intror Hj)) Hnd1 (done ++ [k])). rewrite Hm in IH. specialize (IH Hgoal).
    destruct (lru_run f (map Call ks) c1) as [c2 rs]. cbn [fst] in *. rewrite IH, <- app_assoc. reflexivity.
  Qed.
End P.
