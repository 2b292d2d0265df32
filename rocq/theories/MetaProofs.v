From Coq Require Import String.
From Verif Require Import Base ListLemmas PyDict Cached2Model MetaModel MetaSpec.
Local Open Scope nat_scope. Local Open Scope list_scope.

Lemma get_or_Ok {V} e (d : @dict string V) k v : get_or e d k = Ok v <-> dget d k = Some v.
Proof. unfold get_or. destruct (dget d k); split; congruence. Qed.
Lemma pyget_Ok {A} (l : list A) i x : pyget l i = Ok x <-> nth_error l i = Some x.
Proof. unfold pyget. destruct (nth_error l i); split; congruence. Qed.
Lemma mapM_In {A B} (f : A -> res B) l r x : mapM f l = Ok r -> In x l -> exists y, f x = Ok y /\ In y r.
Proof.
  revert r. induction l as [|a l IH]; intros r H Hx; [destruct Hx|]. cbn in H. apply bind_Ok in H. destruct H as (y&Hy&H). apply bind_Ok in H. destruct H as (ys&Hys&H). apply Ok_inj in H. subst r.
  destruct Hx as [<-|Hx]; [exists y; split; [exact Hy|now left]|]. destruct (IH _ Hys Hx) as (z&Hz&Hi). exists z. split; [exact Hz|now right].
Qed.
Lemma mapM_In_r {A B} (f : A -> res B) l r y : mapM f l = Ok r -> In y r -> exists x, f x = Ok y /\ In x l.
Proof.
  revert r. induction l as [|a l IH]; intros r H Hy; cbn in H; [apply Ok_inj in H; subst; destruct Hy|]. apply bind_Ok in H. destruct H as (z&Hz&H). apply bind_Ok in H. destruct H as (ys&Hys&H). apply Ok_inj in H. subst r.
  destruct Hy as [<-|Hy]; [exists a; split; [exact Hz|now left]|]. destruct (IH _ Hys Hy) as (x&Hx&Hi). exists x. split; [exact Hx|now right].
Qed.
Lemma mapM_intro {A B} (f : A -> res B) l : (forall x, In x l -> exists y, f x = Ok y) -> exists r, mapM f l = Ok r.
Proof.
  induction l as [|a l IH]; intros H; [eexists; reflexivity|]. destruct (H a (or_introl eq_refl)) as (y&Ey). destruct IH as (r&Er); [intros x Hx; apply H; now right|]. exists (y :: r). cbn. rewrite Ey, Er. reflexivity.
Qed.
(** a dict built key by key *)
Lemma mapM_dget {V W} (g : string -> V -> res W) (d : @dict string V) r k : mapM (fun '(k, v) => let* w := g k v in Ok (k, w)) d = Ok r ->
  match dget d k with Some v => exists w, g k v = Ok w /\ dget r k = Some w | None => dget r k = None end.
Proof.
  revert r. induction d as [|(a, v) d IH]; intros r H; cbn in H; [apply Ok_inj in H; subst; reflexivity|]. apply bind_Ok in H. destruct H as ((a'&w)&Hw&H). apply bind_Ok in Hw. destruct Hw as (w'&Hg&Hw). apply Ok_inj in Hw. injection Hw as <- <-.
  apply bind_Ok in H. destruct H as (ys&Hys&H). apply Ok_inj in H. subst r. cbn. destruct (String.eqb_spec a k) as [->|]; [exists w'; split; [exact Hg|reflexivity]|]. apply IH, Hys.
Qed.
Lemma dget_mapfun {V} (f : string -> V) l k : dget (map (fun k => (k, f k)) l) k = if existsb (String.eqb k) l then Some (f k) else None.
Proof. induction l as [|a l IH]; [reflexivity|]. cbn. rewrite String.eqb_sym. destruct (String.eqb_spec k a) as [->|]; [reflexivity|exact IH]. Qed.
Lemma existsb_str k l : existsb (String.eqb k) l = true <-> In k l.
Proof. rewrite existsb_exists. split; [intros (x&Hx&E); apply String.eqb_eq in E; now subst|]. intros H. exists k. split; [exact H|apply String.eqb_refl]. Qed.

(** the positions of the tags *)
Lemma tag_idx_gen l : forall n d t p, dget (fold_left (fun d '(i, t) => dset d t i) (combine (seq n (length l)) l) d) t = Some p ->
  (exists q, p = n + q /\ last_position l t q) \/ (dget d t = Some p /\ ~ In t l).
Proof.
  induction l as [|a l IH]; intros n d t p H; cbn in H; [right; split; [exact H|intros []]|].
  apply IH in H. destruct H as [(q&->&Hq)|(H&Hn)].
  - left. exists (S q). split; [lia|]. destruct Hq as (Hq&Hl). split; [exact Hq|]. intros [|q'] Hq'; [lia|]. cbn. apply Hl. lia.
  - rewrite dget_dset in H. cbn [keqb EqB_string] in H. destruct (String.eqb_spec a t) as [->|Ha].
    + injection H as <-. left. exists 0. split; [lia|]. split; [reflexivity|]. intros [|q] Hq; [lia|]. cbn. intros E. apply Hn. eapply nth_error_In, E.
    + right. split; [exact H|]. intros [E|E]; [now apply Ha|now apply Hn].
Qed.
Lemma tag_idx_has (l : list string) : forall n d t, In t l \/ dget d t <> None -> dget (fold_left (fun d '(i, t) => dset d t i) (combine (seq n (length l)) l) d) t <> None.
Proof.
  induction l as [|a l IH]; intros n d t H; cbn; [destruct H as [[]|H]; exact H|]. apply IH. destruct H as [[->|H]|H]; [right|now left|right]; rewrite dget_dset.
  - rewrite keqb_refl. discriminate.
  - destruct (keqb a t); [discriminate|exact H].
Qed.

Lemma cleanup_last {A} (l : list (nat * A)) a : match last_idx (cleanup_old_seqs l a) with Some i => last_idx l = Some i | None => match last_idx l with Some i => i < a | None => True end end.
Proof.
  assert (Hs : forall l : list (nat * A), cleanup_old_seqs l a = [] /\ (forall i x, In (i, x) l -> i < a) \/ exists l1 l2, l = l1 ++ l2 /\ l2 <> [] /\ cleanup_old_seqs l a = l2).
  { clear l. induction l as [|(i, x) l IH]; cbn; [left; split; [reflexivity|intros ? ? []]|]. destruct (Nat.leb_spec a i) as [H|H]; [right; exists [], ((i, x) :: l); repeat split; discriminate|].
    destruct IH as [(E&H')|(l1&l2&->&Hne&E)]; [left|right].
    - split; [exact E|]. intros j y [Hj|Hj]; [injection Hj as <- _; exact H|exact (H' _ _ Hj)].
    - exists ((i, x) :: l1), l2. auto. }
  unfold last_idx. destruct (Hs l) as [(->&H)|(l1&l2&->&Hne&->)].
  - cbn. destruct (rev l) as [|(i, x) r] eqn:E; [exact I|]. apply H with x. apply in_rev. rewrite E. now left.
  - rewrite rev_app_distr. destruct (rev l2) as [|(i, x) r] eqn:E; [|reflexivity]. apply (f_equal (@rev _)) in E. rewrite rev_involutive in E. contradiction.
Qed.
Lemma cleanup_incl {A} (l : list (nat * A)) a : incl (cleanup_old_seqs l a) l.
Proof. induction l as [|(i, x) l IH]; cbn; [apply incl_refl|]. destruct (a <=? i); [apply incl_refl|]. now apply incl_tl. Qed.
Lemma get_seq_In {A} (l : list (nat * A)) i x : get_seq l i = Some x -> In (i, x) l.
Proof. induction l as [|(j, y) l IH]; cbn; [discriminate|]. destruct (Nat.eqb_spec j i) as [->|]; [intros [= ->]; now left|]. intros H. right. now apply IH. Qed.

Section P.
  Context {X : Type}.
  Variables (given : @dict string (sub X)) (m : @dict string (string * string)) (f : seq_file) (ctrl : option string) (order : nat -> list nat) (c : conf X).
  Hypothesis Hctrl : ctrl <> Some ""%string.
  Hypothesis Hc : construct given m f ctrl order = Ok c.
  Let keys := dataset_keys_of m.

  Lemma keys_In dk k sk : dget m dk = Some (k, sk) -> In k keys.
  Proof. intros H. unfold keys, dataset_keys_of. apply nodup_In. apply dget_In in H. apply in_map_iff. exists (dk, (k, sk)). auto. Qed.

  Record cinv := CInv {
    i_default : default_of m ctrl = Some (default_key c);
    i_control : control c = ctrl;
    i_map : data_map c = m;
    i_order : order_for_epoch c = order;
    i_ds : forall k, dget (datasets c) k = if existsb (String.eqb k) keys then dget given k else None;
    i_ds_in : forall k, In k keys -> exists s, dget given k = Some s;
    i_list : forall k, In k keys \/ k = default_key c -> exists l, dget (seq_list c) k = Some l /\ tags_for given f (default_key c) k = Some l;
    i_len : forall k l l0, In k keys -> dget (seq_list c) k = Some l -> dget (seq_list c) (default_key c) = Some l0 -> length l = length l0;
    i_tag : forall l, dget (seq_list c) (default_key c) = Some l -> tag_idx c = fold_left (fun d '(i, t) => dset d t i) (combine (seq 0 (length l)) l) [];
    i_out : forall dk k sk s, In (dk, (k, sk)) m -> dget (datasets c) k = Some s -> In sk (outputs s);
    i_only : f = NoFile \/ (exists l, f = OneList l) -> dkeys (seq_list c) = keys;
    i_keys : dkeys (datasets c) = keys;
    i_file : forall d, f = ListPerDataset d -> seq_list c = d }.

  Lemma construct_inv : cinv.
  Proof.
    unfold construct in Hc. set (ct := match ctrl with Some c0 => if String.eqb c0 "" then None else Some c0 | None => None end) in Hc. assert (Ect : ct = ctrl). { unfold ct. destruct ctrl as [k|]; [|reflexivity]. destruct (String.eqb_spec k ""); [subst; contradiction|reflexivity]. } rewrite Ect in Hc. clear ct Ect. fold keys in Hc.
    apply bind_Ok in Hc. destruct Hc as (def&Edef&H1). apply bind_Ok in H1. destruct H1 as (ds&Eds&H1). apply bind_Ok in H1. destruct H1 as (lists&El&H1). apply bind_Ok in H1. destruct H1 as (l&Elk&H1). apply get_or_Ok in Elk. apply bind_Ok in H1. destruct H1 as (u&Elen&H1). apply bind_Ok in H1. destruct H1 as (u'&Eout&H1). apply Ok_inj in H1. clear Hc.
    assert (Hds : forall ks r, mapM (fun k => let* s := get_or KeyError given k in Ok (k, s)) ks = Ok r -> dkeys r = ks /\ (forall k, In k ks -> exists s, dget given k = Some s) /\ forall k, dget r k = if existsb (String.eqb k) ks then dget given k else None).
    { induction ks as [|a ks IH]; intros r H; cbn in H; [apply Ok_inj in H; subst; repeat split; intros ? []|]. apply bind_Ok in H. destruct H as (z&Hz&H). apply bind_Ok in Hz. destruct Hz as (s&Es&Hz). apply Ok_inj in Hz. subst z. apply get_or_Ok in Es. apply bind_Ok in H. destruct H as (r'&Hr&H). apply Ok_inj in H. subst r. destruct (IH _ Hr) as (H1'&H2&H3). split; [cbn; now rewrite <- H1'|]. split; [intros k [<-|Hk]; [eauto|now apply H2]|]. intros k. cbn. rewrite String.eqb_sym. destruct (String.eqb_spec k a) as [->|]; [now rewrite Es|apply H3]. }
    destruct (Hds _ _ Eds) as (Hk&Hin&Hget).
    assert (Hlist : forall k, In k keys \/ k = def -> exists l, dget lists k = Some l /\ tags_for given f def k = Some l).
    { intros k Hk'. unfold load_seq_list in El. destruct f as [|l'|d]; cbn [tags_for].
      - apply bind_Ok in El. destruct El as (d0&Ed0&El). apply get_or_Ok in Ed0. apply bind_Ok in El. destruct El as (u2&_&El). apply Ok_inj in El. subst lists. rewrite dget_mapfun in Elk |- *. assert (Hdk : In def keys) by (apply existsb_str; destruct (existsb _ keys); [reflexivity|discriminate]).
        assert (Hkk : In k keys) by (destruct Hk' as [| ->]; assumption). rewrite (proj2 (existsb_str _ _) Hkk). exists (all_tags d0). split; [reflexivity|]. rewrite Hget, (proj2 (existsb_str _ _) Hdk) in Ed0. now rewrite Ed0.
      - apply Ok_inj in El. subst lists. rewrite dget_mapfun in Elk |- *. assert (Hdk : In def keys) by (apply existsb_str; destruct (existsb _ keys); [reflexivity|discriminate]).
        assert (Hkk : In k keys) by (destruct Hk' as [| ->]; assumption). rewrite (proj2 (existsb_str _ _) Hkk). eauto.
      - apply bind_Ok in El. destruct El as (u2&Eu&El). apply Ok_inj in El. subst lists. destruct Hk' as [Hk'| ->]; [|eauto]. destruct (mapM_In _ _ _ _ Eu Hk') as (y&Hy&_). unfold dhas in Hy. destruct (dget d k) as [v|] eqn:Ev; [eauto|discriminate Hy]. }
    split; try rewrite <- H1; cbn [datasets data_map control default_key seq_list tag_idx order_for_epoch]; auto.
    - unfold default_of. destruct ctrl as [k|]; [apply Ok_inj in Edef; now subst|]. destruct (dget m "data"%string) as [(a, b)|]; [apply Ok_inj in Edef; now subst|discriminate Edef].
    - intros k lk l0 Hk' Elk' El0. destruct (mapM_In _ _ _ _ Elen Hk') as (y&Hy&_). apply bind_Ok in Hy. destruct Hy as (l1&E1&Hy). apply get_or_Ok in E1. apply assert_Ok, Nat.eqb_eq in Hy. congruence.
    - intros l0 E. rewrite Elk in E. now injection E as <-.
    - intros dk k sk s Hi Hs. destruct (mapM_In _ _ _ _ Eout Hi) as (y&Hy&_). cbn in Hy. apply bind_Ok in Hy. destruct Hy as (s'&Es'&Hy). apply get_or_Ok in Es'. replace s' with s in * by congruence. destruct (existsb (String.eqb sk) (outputs s)) eqn:E; [now apply existsb_str|discriminate Hy].
    - intros [->|(l'&->)]; cbn [load_seq_list] in El.
      + apply bind_Ok in El. destruct El as (d0&_&El). apply bind_Ok in El. destruct El as (u2&_&El). apply Ok_inj in El. subst lists. unfold dkeys. rewrite map_map. apply map_id.
      + apply Ok_inj in El. subst lists. unfold dkeys. rewrite map_map. apply map_id.
    - intros d ->. cbn [load_seq_list] in El. apply bind_Ok in El. destruct El as (u2&_&El). now apply Ok_inj in El.
  Qed.

  (** the state of the current epoch; [idx]: the positions *)
  Record einv (e : nat) (idx : list nat) (cur_of : string -> list (sseq X) -> Prop) (st : meta X) : Prop := EInv {
    e_ord : exists o, m_ordered st = Some o /\ forall k l, dget (seq_list c) k = Some l -> exists l', dget o k = Some l' /\ mapM (pyget l) idx = Ok l';
    e_cur : forall k q, dget (m_cur st) k = Some q -> cur_of k q;
    e_num : m_num_seqs st = Some (length idx);
    e_epoch : m_epoch st = Some e;
    e_added : forall i t ft, In (i, (t, ft)) (m_added st) -> collect_single_seq c st i = Ok (t, ft) /\ forall k, In k keys -> check_dataset_seq st k i = Ok tt }.

  Lemma load_einv e idx cur_of st a b : einv e idx cur_of st -> einv e idx cur_of (fst (load_seqs c st a b)) /\ m_ordered (fst (load_seqs c st a b)) = m_ordered st /\ m_cur (fst (load_seqs c st a b)) = m_cur st.
  Proof.
    intros [H1 H2 H3 H4 H5]. unfold load_seqs. destruct (a <=? b); cbn [negb]; [|auto using EInv]. rewrite (i_map construct_inv). fold keys.
    set (start_ := match last_idx (m_added st) with Some i => Nat.max (i + 1) a | None => a end). destruct (mapM (fun k => mapM _ _) keys) as [u|er] eqn:Eu; [|cbn; auto using EInv]. destruct (m_start st <=? a); cbn [negb]; [|auto using EInv].
    set (p := if m_start st <? a then (cleanup_old_seqs (m_added st) a, a) else (m_added st, m_start st)).
    assert (Hp : incl (fst p) (m_added st) /\ match last_idx (fst p) with Some i => Nat.max (i + 1) a | None => a end = start_).
    { unfold p, start_. destruct (m_start st <? a); cbn [fst]; [|split; [apply incl_refl|reflexivity]]. split; [apply cleanup_incl|]. pose proof (cleanup_last (m_added st) a) as Hl. destruct (last_idx (cleanup_old_seqs _ a)) as [i|]; [now rewrite Hl|]. destruct (last_idx (m_added st)); lia. }
    destruct p as [added expected]. cbn [fst] in Hp. destruct Hp as (Hi&Es). rewrite Es. set (st' := Meta (m_epoch st) (m_ordered st) (m_num_seqs st) (m_cur st) expected added).
    destruct (mapM (fun i => let* s := collect_single_seq c st' i in Ok (i, s)) (seq start_ (b - start_))) as [new|er] eqn:En; cbn [fst m_ordered m_cur]; (split; [|auto]); split; cbn [m_ordered m_cur m_num_seqs m_epoch m_added]; auto.
    - intros i t ft Hin. apply in_app_or in Hin. destruct Hin as [Hin|Hin]; [exact (H5 _ _ _ (Hi _ Hin))|]. destruct (mapM_In_r _ _ _ _ En Hin) as (i'&Hi'&Hr). apply bind_Ok in Hi'. destruct Hi' as (s&Hs&Hi'). apply Ok_inj in Hi'. injection Hi' as -> ->. split; [exact Hs|].
      intros k Hk. destruct (mapM_In _ _ _ _ Eu Hk) as (u2&Hu2&_). destruct (mapM_In _ _ _ _ Hu2 Hr) as (u3&Hu3&_). destruct u3. exact Hu3.
    - intros i t ft Hin. exact (H5 _ _ _ (Hi _ Hin)).
  Qed.
  Lemma loads_einv e idx cur_of l : forall st, einv e idx cur_of st -> einv e idx cur_of (loads c st l) /\ m_ordered (loads c st l) = m_ordered st /\ m_cur (loads c st l) = m_cur st.
  Proof.
    unfold loads. induction l as [|(a, b) l IH]; intros st H; cbn [fold_left]; [auto|]. destruct (load_einv _ _ _ _ a b H) as (H'&E1&E2). cbn [fst snd]. destruct (IH _ H') as (H2&E3&E4). split; [exact H2|]. split; congruence.
  Qed.

  Definition cur_spec (e : nat) (k : string) (q : list (sseq X)) : Prop := exists s l, dget given k = Some s /\ seqs_of s e l = Ok q.

  Lemma seq_index_wants e arg idx bc : seq_index c e arg = Ok (idx, bc) -> wants given f ctrl (default_key c) order e arg idx /\
     match bc with None => True | Some (k, q) => ctrl = Some k /\ exists s, dget given k = Some s /\ seqs_of s e None = Ok q /\ idx = map (fun x => fst (fst x)) q end.
  Proof.
    intros H. destruct construct_inv as [H1 H2 H3 H4 H5 H6 H7 H8 H9 H10 _ _ _]. unfold seq_index in H. destruct arg as [|l|l].
    - rewrite H2 in H. destruct ctrl as [k|] eqn:Ek.
      + apply bind_Ok in H. destruct H as (s&Es&H). apply get_or_Ok in Es. apply bind_Ok in H. destruct H as (q&Eq&H). apply Ok_inj in H. injection H as <- <-. rewrite H5 in Es. destruct (existsb _ keys); [|discriminate Es]. split; [exact (WantsControl _ _ _ _ _ _ _ _ _ eq_refl Es Eq)|]. split; [reflexivity|]. eauto.
      + apply Ok_inj in H. injection H as <- <-. rewrite H4. split; [now apply WantsOwn|exact I].
    - apply bind_Ok in H. destruct H as (is&Hi&H). apply Ok_inj in H. injection H as <- <-. split; [|exact I]. destruct (H7 _ (or_intror eq_refl)) as (tags&Et&Et'). apply (WantsTags _ _ _ _ _ _ _ tags _ Et').
      apply mapM_Ok_Forall2 in Hi. eapply Forall2_impl'; [|exact Hi]. intros t p Hp. apply get_or_Ok in Hp. rewrite (H9 _ Et) in Hp. apply tag_idx_gen in Hp. destruct Hp as [(q&->&Hq)|(Hp&_)]; [exact Hq|discriminate Hp].
    - apply Ok_inj in H. injection H as <- <-. split; [apply WantsOrder|exact I].
  Qed.

  Lemma init_einv st e arg st1 : init_seq_order c st e arg = (st1, Ok true) ->
    exists idx, wants given f ctrl (default_key c) order e arg idx /\ einv e idx (cur_spec e) st1 /\ m_start st1 = 0 /\ m_added st1 = [] /\
      exists o bc, m_ordered st1 = Some o /\ seq_index c e arg = Ok (idx, bc) /\
        mapM (fun '(k, s) => match bc with
                                           | Some (k', seqs) => if String.eqb k k' then Ok (k, seqs) else
                                                                let* l := get_or KeyError o k in let* q := seqs_of s e (Some l) in Ok (k, q)
                                           | None => let* l := get_or KeyError o k in let* q := seqs_of s e (Some l) in Ok (k, q)
                                           end) (datasets c) = Ok (m_cur st1).
  Proof.
    intros H. unfold init_seq_order in H. cbn [m_ordered] in H.
    set (need := _ || _ || _ || _) in H.
    assert (H' : (match seq_index c e arg with
        | Err e0 => (Meta (Some e) (m_ordered st) None (m_cur st) 0 [], Err e0)
        | Ok (index, by_control) =>
            match mapM (fun '(k, l) => let* l' := mapM (pyget l) index in Ok (k, l')) (seq_list c) with
            | Err e0 => (Meta (Some e) (m_ordered st) (Some (length index)) (m_cur st) 0 [], Err e0)
            | Ok ordered =>
                match mapM (fun '(k, s) => match by_control with
                                           | Some (k', seqs) => if String.eqb k k' then Ok (k, seqs) else
                                                                let* l := get_or KeyError ordered k in let* q := seqs_of s e (Some l) in Ok (k, q)
                                           | None => let* l := get_or KeyError ordered k in let* q := seqs_of s e (Some l) in Ok (k, q)
                                           end) (datasets c) with
                | Err e0 => (Meta (Some e) (Some ordered) (Some (length index)) (m_cur st) 0 [], Err e0)
                | Ok cur => (Meta (Some e) (Some ordered) (Some (length index)) cur 0 [], Ok true)
                end
            end
        end) = (st1, Ok true)).
    { destruct (m_ordered st) as [o|]; [|exact H]. destruct need; [exact H|]. destruct (get_or KeyError o (default_key c)); discriminate H. }
    clear H. destruct (seq_index c e arg) as [[idx bc]|er] eqn:Ei; [|discriminate H']. destruct (seq_index_wants _ _ _ _ Ei) as (Hw&Hbc).
    destruct (mapM _ (seq_list c)) as [o|er] eqn:Eo; [|discriminate H']. destruct (mapM _ (datasets c)) as [cur|er] eqn:Ec; [|discriminate H']. injection H' as <-. exists idx. split; [exact Hw|]. split.
    - split; cbn [m_ordered m_cur m_num_seqs m_epoch m_added]; auto; [| |intros i t ft []].
      + exists o. split; [reflexivity|]. intros k l Hk. pose proof (mapM_dget (fun _ l => mapM (pyget l) idx) _ _ k Eo) as Hd. rewrite Hk in Hd. destruct Hd as (w&Hw'&Hd). eauto.
      + intros k q Hq. apply dget_In in Hq. destruct (mapM_In_r _ _ _ _ Ec Hq) as ((k'&s)&Hk&Hin). 
        assert (Hs : dget given k' = Some s).
        { pose proof (i_ds construct_inv k') as Hg. assert (In k' keys) by (rewrite <- (i_keys construct_inv); apply (in_map fst) in Hin; exact Hin). rewrite (proj2 (existsb_str _ _) H) in Hg. rewrite <- Hg.
          apply In_dget; [|exact Hin]. unfold dict_ok. rewrite (i_keys construct_inv). apply NoDup_nodup. }
        assert (Hother : (let* l := get_or KeyError o k' in let* q := seqs_of s e (Some l) in Ok (k', q)) = Ok (k, q) -> cur_spec e k q).
        { intros H. apply bind_Ok in H. destruct H as (l&_&H). apply bind_Ok in H. destruct H as (q'&Eq&H). apply Ok_inj in H. injection H as -> ->. exists s, (Some l). auto. }
        destruct bc as [(k2&q2)|]; [|now apply Hother]. destruct (String.eqb_spec k' k2) as [->|]; [|now apply Hother]. apply Ok_inj in Hk. injection Hk as -> ->. destruct Hbc as (_&s'&Es&Eq&_). exists s', None. auto.
    - repeat split. exists o, bc. cbn [m_ordered m_cur]. auto.
  Qed.
End P.
