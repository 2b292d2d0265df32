(** C53 and C54: a dataset that combines the data of several datasets. *)
From Coq Require Import String.
From Verif Require Import Base ListLemmas PyDict MetaModel MetaSpec MetaProofs MetaLoadProofs.
Local Open Scope string_scope. Local Open Scope nat_scope. Local Open Scope list_scope.
Local Notation length := List.length.

(** C53: all data that is read for a sequence belongs together: it is the data of the sub-datasets for the tags at one position of the lists of tags, and the tag of the sequence is the one at this position. The position is the one that was asked for. This holds for any behaviour of the sub-datasets, as long as their data for a tag is always the same, and for any loads. *)
Theorem C53_belong_together : forall (X : Type) (given : @dict string (sub X)) m f ctrl order c st epoch arg st1 l content i key x,
  ctrl <> Some "" -> construct given m f ctrl order = Ok c -> init_seq_order c st epoch arg = (st1, Ok true) -> faithful given content ->
  get_data (loads c st1 l) i key = Ok x ->
  exists default idx p k sub_key tags0 tag0 tags tag data,
    default_of m ctrl = Some default /\ wants given f ctrl default order epoch arg idx /\ nth_error idx i = Some p
    /\ get_tag c (loads c st1 l) i = Ok tag0 /\ tags_for given f default default = Some tags0 /\ nth_error tags0 p = Some tag0
    /\ dget m key = Some (k, sub_key) /\ tags_for given f default k = Some tags /\ nth_error tags p = Some tag
    /\ content k tag = Some data /\ dget data sub_key = Some x.
Proof.
  intros X given m f ctrl order c st epoch arg st1 l content i key x Hctrl Hc Hi Hf Hx. destruct (init_einv _ _ _ _ _ _ Hctrl Hc _ _ _ _ Hi) as (idx&Hw&He&_). destruct (loads_einv _ _ _ _ _ _ Hctrl Hc _ _ _ l _ He) as (He'&_&_).
  destruct (pairing _ _ _ _ _ _ Hctrl Hc content _ _ _ _ _ _ Hf He' Hx) as (k&sk&p&l0&t0&lt&t&d&H1&H2&H3&H4&H5&H6&H7&H8&H9). exists (default_key c), idx, p, k, sk, l0, t0, lt, t, d.
  split; [exact (i_default _ _ _ _ _ _ (construct_inv _ _ _ _ _ _ Hctrl Hc))|]. auto 12.
Qed.
Print Assumptions C53_belong_together.

(** C53: the number of sequences, their tags and their order are what was asked for. *)
Theorem C53_sequences_of_epoch : forall (X : Type) (given : @dict string (sub X)) m f ctrl order c st epoch arg st1 l,
  ctrl <> Some "" -> construct given m f ctrl order = Ok c -> init_seq_order c st epoch arg = (st1, Ok true) ->
  exists default idx tags, default_of m ctrl = Some default /\ wants given f ctrl default order epoch arg idx /\ tags_for given f default default = Some tags
    /\ get_all_tags c = Ok tags /\ num_seqs (loads c st1 l) = Ok (length idx)
    /\ (forall i p, nth_error idx i = Some p -> exists tag, nth_error tags p = Some tag /\ get_tag c (loads c st1 l) i = Ok tag)
    /\ (NoDup tags -> get_current_seq_order c (loads c st1 l) = Ok idx).
Proof.
  intros X given m f ctrl order c st epoch arg st1 l Hctrl Hc Hi. destruct (init_einv _ _ _ _ _ _ Hctrl Hc _ _ _ _ Hi) as (idx&Hw&He&_). destruct (loads_einv _ _ _ _ _ _ Hctrl Hc _ _ _ l _ He) as (He'&_&_).
  pose proof (construct_inv _ _ _ _ _ _ Hctrl Hc) as CI. destruct (i_list _ _ _ _ _ _ CI _ (or_intror eq_refl)) as (tags&Etl&Et). destruct He' as [(o&Eo&Ho) _ Hn _ _]. destruct (Ho _ _ Etl) as (l'&El'&Hm).
  exists (default_key c), idx, tags. split; [exact (i_default _ _ _ _ _ _ CI)|]. split; [exact Hw|]. split; [exact Et|]. split; [now apply get_or_Ok|]. split; [unfold num_seqs; now rewrite Hn|]. split.
  - intros i p Hp. assert (Hp' : exists t, nth_error l' i = Some t). { pose proof (mapM_pyget_len _ _ _ Hm) as Hlen. assert (i < length l') by (rewrite Hlen; apply nth_error_Some; congruence). destruct (nth_error l' i) eqn:E; [eauto|]. apply nth_error_None in E. lia. }
    destruct Hp' as (t&Et'). exists t. split; [|unfold get_tag; rewrite Eo; cbn [bind]; rewrite (proj2 (get_or_Ok KeyError _ _ _) El'); cbn [bind]; now apply pyget_Ok]. rewrite (mapM_pyget_nth _ _ _ _ Hm), Hp in Et'. exact Et'.
  - intros Hnd. unfold get_current_seq_order. rewrite Eo. cbn [bind]. rewrite (proj2 (get_or_Ok KeyError _ _ _) El'). cbn [bind]. rewrite (i_tag _ _ _ _ _ _ CI _ Etl).
    apply mapM_Ok_Forall2 in Hm. clear - Hm Hnd. induction Hm as [|p t idx l' Hp Hr IH]; [reflexivity|]. cbn [mapM]. apply pyget_Ok in Hp.
    assert (E : get_or KeyError (fold_left (fun d '(i, t) => dset d t i) (combine (seq 0 (length tags)) tags) []) t = Ok p).
    { pose proof (tag_idx_has tags 0 [] t (or_introl (nth_error_In _ _ Hp))) as Hh. unfold get_or. destruct (dget _ t) as [q|] eqn:Eq; [|now elim Hh]. apply tag_idx_gen in Eq. destruct Eq as [(q'&->&Hq'&_)|(Eq&_)]; [|discriminate Eq]. f_equal. cbn.
      rewrite NoDup_nth_error in Hnd. apply Hnd; [apply nth_error_Some; congruence|congruence]. }
    rewrite E. cbn [bind]. rewrite IH. reflexivity.
Qed.
Print Assumptions C53_sequences_of_epoch.

(** C53: a request for particular sequences always takes effect, and so does a new epoch; only the same epoch without a request, from its begin, is left as it is. *)
Theorem C53_takes_effect : forall (X : Type) (c : conf X) st epoch arg st', init_seq_order c st epoch arg = (st', Ok false) ->
  arg = Default /\ m_epoch st = Some epoch /\ m_start st = 0 /\ exists o, m_ordered st = Some o.
Proof.
  intros X c st epoch arg st' H. unfold init_seq_order in H. cbn [m_ordered m_cur] in H. set (need := _ || _ || _ || _) in H. destruct need eqn:En.
  - exfalso. destruct (m_ordered st); (destruct (seq_index c epoch arg) as [(i&b)|]; [|discriminate H]; destruct (mapM _ (seq_list c)); [|discriminate H]; destruct (mapM _ (datasets c)); discriminate H).
  - unfold need in En. clear need H. destruct (m_epoch st) as [e|]; [|discriminate En]. destruct (Nat.eqb_spec e epoch) as [Ee|]; [subst e|discriminate En]. destruct (m_ordered st) as [o|]; [|discriminate En]. destruct arg; [|discriminate En|discriminate En].
    cbn in En. destruct (m_start st); [|discriminate En]. eauto.
Qed.
Print Assumptions C53_takes_effect.
(** C53: before the first epoch there are no sequences. *)
Theorem C53_initial : forall (X : Type), num_seqs (@initial X) = Ok 0 /\ m_start (@initial X) = 0.
Proof. intros X. split; reflexivity. Qed.
Print Assumptions C53_initial.

(** C53: if the epoch is initialised again without a predefined order and this has no effect (the dataset says that nothing changed), then everything is as it was at the first time. *)
Theorem C53_same_epoch_again : forall (X : Type) (given : @dict string (sub X)) m f ctrl order c st epoch arg st1 l st2,
  ctrl <> Some "" -> construct given m f ctrl order = Ok c -> init_seq_order c st epoch arg = (st1, Ok true) ->
  init_seq_order c (loads c st1 l) epoch Default = (st2, Ok false) -> st2 = st1.
Proof.
  intros X given m f ctrl order c st epoch arg st1 l st2 Hctrl Hc Hi H. destruct (init_einv _ _ _ _ _ _ Hctrl Hc _ _ _ _ Hi) as (idx&Hw&He&Hs&Ha&_). destruct (loads_einv _ _ _ _ _ _ Hctrl Hc _ _ _ l _ He) as (He'&E1&E2).
  pose proof (construct_inv _ _ _ _ _ _ Hctrl Hc) as CI. destruct (i_list _ _ _ _ _ _ CI _ (or_intror eq_refl)) as (tags&Etl&Et). destruct He as [(o&Eo&Ho) _ Hn Hep _]. destruct (Ho _ _ Etl) as (l'&El'&Hm).
  unfold init_seq_order in H. cbn [m_ordered m_cur] in H. rewrite E1, Eo in H. set (need := _ || _ || _ || _) in H. destruct need.
  - exfalso. destruct (seq_index c epoch Default) as [(i&b)|]; [|discriminate H]. destruct (mapM _ (seq_list c)); [|discriminate H]. destruct (mapM _ (datasets c)); discriminate H.
  - rewrite (proj2 (get_or_Ok KeyError _ _ _) El') in H. injection H as <-. rewrite E2, (mapM_pyget_len _ _ _ Hm), <- Hn, <- Eo, <- Hep, <- Hs, <- Ha. now destruct st1.
Qed.
Print Assumptions C53_same_epoch_again.

(** Two datasets with the same sequences under other tags. *)
Definition ex_sub (tags : list string) (base : nat) : sub nat :=
  let data t := match t with String a _ => base + Ascii.nat_of_ascii a | EmptyString => base end in
  Sub tags (Some (length tags)) ["x"]
    (fun epoch l => Ok (map (fun '(i, t) => (i, t, [("x", data t)]))
       (match l with None => combine (seq 0 (length tags)) tags | Some l => combine (seq 0 (length l)) l end))).
Definition ex_given : @dict string (sub nat) := [("d1", ex_sub ["a"; "b"; "c"] 0); ("d2", ex_sub ["A"; "B"; "C"] 100)].
Definition ex_map : @dict string (string * string) := [("data", ("d1", "x")); ("target", ("d2", "x"))].
Definition ex_file := ListPerDataset [("d1", ["a"; "b"; "c"]); ("d2", ["C"; "B"; "A"])].
Example C53_ex : exists c st1, construct ex_given ex_map ex_file None (fun epoch => [2; 0]) = Ok c /\ init_seq_order c initial 1 Default = (st1, Ok true) /\
  let st := loads c st1 [(0, 2)] in
  (num_seqs st, map (get_tag c st) [0; 1], map (fun i => get_data st i "data") [0; 1; 2], map (fun i => get_data st i "target") [0; 1], get_current_seq_order c st)
  = (Ok 2, [Ok "c"; Ok "a"], [Ok 99; Ok 97; Err OtherException], [Ok 165; Ok 167], Ok [2; 0]).
Proof. eexists _, _. split; [reflexivity|]. split; reflexivity. Qed.
Example C53_ex_faithful : faithful ex_given (fun k t => Some [("x", (if String.eqb k "d1" then 0 else 100) + match t with String a _ => Ascii.nat_of_ascii a | EmptyString => 0 end)]).
Proof.
  intros k s epoch l seqs n t d Hk Hs Hin. apply dget_In in Hk. destruct Hk as [Hk|[Hk|[]]]; injection Hk as <- <-; unfold ex_sub, seqs_of in Hs; apply Ok_inj in Hs; subst seqs; apply in_map_iff in Hin; destruct Hin as ((i&t')&E&_); injection E as _ -> <-; destruct t; reflexivity.
Qed.

(** C53, finding: an epoch that was initialised with a list of tags keeps this list when it is initialised again without one. *)
Theorem C53_default_after_list_refuted : exists c st1 st2, construct ex_given ex_map ex_file None (fun _ => [0; 1; 2]) = Ok c /\
  init_seq_order c initial 1 (SeqList ["b"]) = (st1, Ok true) /\ init_seq_order c st1 1 Default = (st2, Ok false) /\ num_seqs st2 = Ok 1 /\
  forall st3, init_seq_order c initial 1 Default = (st3, Ok true) -> num_seqs st3 = Ok 3.
Proof. eexists _, _, _. split; [reflexivity|]. split; [reflexivity|]. split; [reflexivity|]. split; [reflexivity|]. intros st3 H. vm_compute in H. injection H as <-. reflexivity. Qed.
Print Assumptions C53_default_after_list_refuted.

(** C53, finding: after an initialisation which failed because of an unknown tag, initialising this epoch in the usual way has no effect: the sequences are still those of the epoch before. *)
Theorem C53_after_failure_refuted : exists c st1 st2 st3, construct ex_given ex_map ex_file None (fun epoch => [epoch]) = Ok c /\
  init_seq_order c initial 1 Default = (st1, Ok true) /\ init_seq_order c st1 2 (SeqList ["z"]) = (st2, Err KeyError) /\ init_seq_order c st2 2 Default = (st3, Ok false) /\
  get_tag c st3 0 = Ok "b" /\ forall st4, init_seq_order c st1 2 Default = (st4, Ok true) -> get_tag c st4 0 = Ok "c".
Proof. eexists _, _, _, _. split; [reflexivity|]. split; [reflexivity|]. split; [reflexivity|]. split; [reflexivity|]. split; [reflexivity|]. intros st4 H. vm_compute in H. injection H as <-. reflexivity. Qed.
Print Assumptions C53_after_failure_refuted.

(** C54: if the sub-datasets can be given a list of their tags, then a new epoch can be initialised with every valid request, all loads in a row succeed, and after a load all data keys can be read for the loaded sequences. *)
Theorem C54_usable : forall (X : Type) (given : @dict string (sub X)) m f ctrl order c st epoch arg default tags,
  ctrl <> Some "" -> construct given m f ctrl order = Ok c -> default_of m ctrl = Some default -> tags_for given f default default = Some tags ->
  (forall k s l, In k (map (fun x => fst (snd x)) m) -> dget given k = Some s -> can_order s /\ (tags_for given f default k = Some l -> incl l (all_tags s))) ->
  (forall k s, ctrl = Some k -> dget given k = Some s -> own_order s /\ tags_for given f default k = Some (all_tags s)) ->
  In default (map (fun x => fst (snd x)) m) -> (forall d, f = ListPerDataset d -> dict_ok d /\ incl (dkeys d) (map (fun x => fst (snd x)) m)) ->
  valid_request ctrl order epoch arg tags -> m_epoch st <> Some epoch ->
  exists st1 n, init_seq_order c st epoch arg = (st1, Ok true) /\ num_seqs st1 = Ok n /\
    forall l a b, forward_loads n 0 (l ++ [(a, b)]) ->
      snd (load_seqs c (loads c st1 l) a b) = Ok tt /\
      forall i key, a <= i < b -> In key (dkeys m) -> exists x, get_data (loads c st1 (l ++ [(a, b)])) i key = Ok x.
Proof.
  intros X given m f ctrl order c st epoch arg default tags Hctrl Hc Hd Ht Hsub Hown Hdk Hfile Hv He. pose proof (construct_inv _ _ _ _ _ _ Hctrl Hc) as CI. rewrite (i_default _ _ _ _ _ _ CI) in Hd. injection Hd as <-.
  assert (Hk : forall k, In k (dataset_keys_of m) <-> In k (map (fun x => fst (snd x)) m)) by (intros k; apply nodup_In).
  destruct (init_works _ _ _ _ _ _ Hctrl Hc) with (st := st) (e := epoch) (arg := arg) (tags := tags) as (st1&idx&Ei&En&Hw&Hg&Hwin&Hs&Hei); auto.
  - intros k s Hkk Es. apply (Hsub k s []); [now apply Hk|exact Es].
  - intros k s l Hkk Es El. apply (Hsub k s l); [now apply Hk|exact Es|exact El].
  - now apply Hk.
  - intros d Ed. destruct (Hfile d Ed) as (H1&H2). split; [exact H1|]. intros k Hin. now apply Hk, H2.
  - exists st1, (length idx). split; [exact Ei|]. split; [exact En|]. intros l a b Hf. rewrite <- Hs in Hf. 
    destruct (loads_good _ _ _ _ _ _ Hctrl Hc _ _ _ _ Hg Hwin Hf) as (_&h'&Hg'&Hw'&Hlast). destruct (Hlast l a b eq_refl) as (Hst&Hb). split.
    + assert (Hf' : forward_loads (length idx) (m_start st1) l /\ (forall l1 a' b', l = l1 ++ [(a', b')] -> a' <= a) /\ a <= b /\ b <= length idx /\ m_start st1 <= a).
      { clear - Hf. revert Hf. generalize (m_start st1). induction l as [|(a0, b0) l IH]; intros lo Hf; cbn [app forward_loads] in Hf |- *.
        - destruct Hf as (H1&H2&H3&_). repeat split; auto. intros [|? ?] ? ? E; discriminate E.
        - destruct Hf as (H1&H2&H3&Hf). destruct (IH _ Hf) as (I1&I2&I3&I4&I5). repeat split; auto; [|lia]. intros [|z l1] a' b' E; cbn in E; [injection E as -> -> ->; exact I5|]. injection E as _ E. exact (I2 _ _ _ E). }
      destruct Hf' as (Hf1&Hf2&Hab&Hbn&Hlo). destruct (loads_good _ _ _ _ _ _ Hctrl Hc _ _ _ _ Hg Hwin Hf1) as (_&h2&Hg2&Hw2&Hlast2).
      destruct (load_good _ _ _ _ _ _ Hctrl Hc (loads c st1 l) (length idx) h2 a b Hg2 Hw2) as (st'&El&_); auto.
      * destruct l as [|y l _] using rev_ind; [exact Hlo|]. destruct y as (a', b'). rewrite (proj1 (Hlast2 _ _ _ eq_refl)). exact (Hf2 _ _ _ eq_refl).
      * now rewrite El.
    + intros i key Hi Hkey. destruct (loads_einv _ _ _ _ _ _ Hctrl Hc _ _ _ (l ++ [(a, b)]) _ Hei) as (Hei'&_). apply (window_data _ _ _ _ _ _ Hctrl Hc _ (length idx) h'); auto; [|lia].
      intros i' t ft Hin. exact (proj1 (e_added _ _ _ _ _ _ Hei' _ _ _ Hin)).
Qed.
Print Assumptions C54_usable.
Lemma ex_can_order tags base : can_order (ex_sub tags base).
Proof.
  intros epoch l _. unfold ex_sub. cbn [seqs_of outputs]. eexists. split; [reflexivity|]. split.
  - rewrite map_map. rewrite <- (map_id l) at 3. generalize 0. induction l as [|t l IH]; intros n; [reflexivity|]. cbn. f_equal. apply IH.
  - intros n t d Hin. apply in_map_iff in Hin. destruct Hin as ((i&t')&E&_). injection E as _ _ <-. apply incl_refl.
Qed.
Example C54_ex_hyps : (forall k s l, In k (map (fun x => fst (snd x)) ex_map) -> dget ex_given k = Some s -> can_order s /\ (tags_for ex_given ex_file "d1" k = Some l -> incl l (all_tags s)))
  /\ In "d1" (map (fun x => fst (snd x)) ex_map) /\ valid_request None (fun _ => [2; 0]) 1 Default ["a"; "b"; "c"] /\ forward_loads 2 0 [(0, 1); (0, 2); (1, 2)].
Proof.
  split; [|split; [now left|split; [intros _; repeat (apply Forall_cons; [cbn; lia|]); apply Forall_nil|cbn; lia]]].
  intros k s l [<-|[<-|[]]] Hs; cbn in Hs; injection Hs as <-; (split; [apply ex_can_order|]); cbn; intros [= <-]; intros t Ht; cbn in Ht |- *; tauto.
Qed.

(** C54: without a list of the sequences, the datasets can be combined if all others have at least as many sequences as the one that gives the tags (or do not know), ... *)
Theorem C54_construct : forall (X : Type) (given : @dict string (sub X)) m ctrl order default s,
  ctrl <> Some "" -> default_of m ctrl = Some default -> In default (map (fun x => fst (snd x)) m) -> dget given default = Some s ->
  (forall k, In k (map (fun x => fst (snd x)) m) -> exists s', dget given k = Some s') ->
  (forall key k sub_key s', In (key, (k, sub_key)) m -> dget given k = Some s' -> In sub_key (outputs s')) ->
  (forall k s' n, In k (map (fun x => fst (snd x)) m) -> k <> default -> dget given k = Some s' -> total_num_seqs s' = Some n -> length (all_tags s) <= n) ->
  exists c, construct given m NoFile ctrl order = Ok c.
Proof.
  intros X given m ctrl order default s Hctrl Hd Hin Hs Hall Hout Hlen. unfold construct.
  assert (Ec : (match ctrl with Some c0 => if String.eqb c0 "" then None else Some c0 | None => None end) = ctrl) by (destruct ctrl as [c0|]; [destruct (String.eqb_spec c0 "") as [->|]; [now elim Hctrl|reflexivity]|reflexivity]).
  rewrite Ec. assert (Ed : match ctrl with Some c0 => Ok c0 | None => match dget m "data" with Some (d, _) => Ok d | None => Err AssertionError end end = Ok default).
  { unfold default_of in Hd. destruct ctrl as [c0|]; [now injection Hd as ->|]. destruct (dget m "data") as [(d&?)|]; [|discriminate Hd]. now injection Hd as ->. }
  rewrite Ed. cbn [bind]. set (keys := dataset_keys_of m). assert (Hk : forall k, In k keys <-> In k (map (fun x => fst (snd x)) m)) by (intros k; apply nodup_In).
  assert (Hds : exists ds, mapM (fun k => let* s0 := get_or KeyError given k in Ok (k, s0)) keys = Ok ds /\ forall k s', In k keys -> dget given k = Some s' -> dget ds k = Some s').
  { assert (Hsub : forall k, In k keys -> exists s', dget given k = Some s') by (intros k Hkk; apply Hall, Hk, Hkk). clear - Hsub. induction keys as [|k keys IH]; [exists []; split; [reflexivity|intros k s' []]|]. cbn [mapM].
    destruct (Hsub k (or_introl eq_refl)) as (s0&E0). rewrite (proj2 (get_or_Ok KeyError _ _ _) E0). cbn [bind]. destruct IH as (ds&E&H); [intros k' Hk'; apply Hsub; now right|]. rewrite E. cbn [bind]. eexists. split; [reflexivity|].
    intros k' s' Hk' E'. cbn [dget]. destruct (keqb k k') eqn:Ek; [apply keqb_eq in Ek; congruence|]. apply H; [|exact E']. destruct Hk' as [->|Hk']; [|exact Hk']. rewrite keqb_refl in Ek. discriminate Ek. }
  destruct Hds as (ds&Eds&Hds). rewrite Eds. cbn [bind load_seq_list]. rewrite (proj2 (get_or_Ok KeyError _ _ _) (Hds default s (proj2 (Hk _) Hin) Hs)). cbn [bind].
  match goal with |- context [bind (mapM ?f keys)] => assert (Hx : exists u, mapM f keys = Ok u); [apply mapM_intro|destruct Hx as (u&Eu); rewrite Eu] end.
  { intros k Hkk. destruct (String.eqb k default) eqn:Ene; [eauto|]. assert (Hne : k <> default) by (intros ->; rewrite String.eqb_refl in Ene; discriminate Ene). destruct (Hall k (proj1 (Hk _) Hkk)) as (s'&Es'). rewrite (proj2 (get_or_Ok KeyError _ _ _) (Hds k s' Hkk Es')). cbn [bind]. destruct (total_num_seqs s') as [n|] eqn:En; [|eauto].
    pose proof (Hlen k s' n (proj1 (Hk _) Hkk) Hne Es' En) as Hl. apply Nat.leb_le in Hl. rewrite Hl. eauto. }
  cbn [bind]. unfold get_or at 1. rewrite dget_mapfun. rewrite (proj2 (existsb_str _ _) (proj2 (Hk _) Hin)). cbn [bind].
  match goal with |- context [bind (mapM ?f keys)] => assert (Hx : exists u, mapM f keys = Ok u); [apply mapM_intro|destruct Hx as (u2&Eu2); rewrite Eu2] end.
  { intros k Hkk. unfold get_or. rewrite dget_mapfun, (proj2 (existsb_str _ _) Hkk). cbn [bind]. rewrite Nat.eqb_refl. eexists. reflexivity. }
  cbn [bind]. match goal with |- context [bind (mapM ?f m)] => assert (Hx : exists u, mapM f m = Ok u); [apply mapM_intro|destruct Hx as (u3&Eu3); rewrite Eu3; cbn [bind]; eauto] end.
  intros (key&(k&sk)) Hm. assert (Hkm : In k (map (fun x => fst (snd x)) m)) by (apply in_map_iff; exists (key, (k, sk)); auto). destruct (Hall k Hkm) as (s'&Es'). rewrite (proj2 (get_or_Ok KeyError _ _ _) (Hds k s' (proj2 (Hk _) Hkm) Es')). cbn [bind].
  rewrite (proj2 (existsb_str _ _) (Hout key k sk s' Hm Es')). eauto.
Qed.
Print Assumptions C54_construct.
(** ... and they are rejected if one is known to have fewer. *)
Theorem C54_too_few : forall (X : Type) (given : @dict string (sub X)) m ctrl order default s k s' n c,
  ctrl <> Some "" -> default_of m ctrl = Some default -> dget given default = Some s -> In k (map (fun x => fst (snd x)) m) -> k <> default ->
  dget given k = Some s' -> total_num_seqs s' = Some n -> n < length (all_tags s) -> construct given m NoFile ctrl order <> Ok c.
Proof.
  intros X given m ctrl order default s k s' n c Hctrl Hd Hs Hin Hne Hs' Hn Hlt H. unfold construct in H.
  assert (Ec : (match ctrl with Some c0 => if String.eqb c0 "" then None else Some c0 | None => None end) = ctrl) by (destruct ctrl as [c0|]; [destruct (String.eqb_spec c0 "") as [->|]; [now elim Hctrl|reflexivity]|reflexivity]).
  rewrite Ec in H. assert (Ed : match ctrl with Some c0 => Ok c0 | None => match dget m "data" with Some (d, _) => Ok d | None => Err AssertionError end end = Ok default).
  { unfold default_of in Hd. destruct ctrl as [c0|]; [now injection Hd as ->|]. destruct (dget m "data") as [(d&?)|]; [|discriminate Hd]. now injection Hd as ->. }
  rewrite Ed in H. cbn [bind] in H. apply bind_Ok in H. destruct H as (ds&Eds&H).
  assert (Hds : forall k0 s0, dget ds k0 = Some s0 -> dget given k0 = Some s0).
  { intros k0 s0 E0. apply dget_In in E0. destruct (mapM_In_r _ _ _ _ Eds E0) as (k1&E1&_). apply bind_Ok in E1. destruct E1 as (s1&E1&E2). apply get_or_Ok in E1. apply Ok_inj in E2. congruence. }
  assert (Hdk : forall k0, In k0 (dataset_keys_of m) -> exists s0, dget ds k0 = Some s0).
  { clear - Eds. revert ds Eds. induction (dataset_keys_of m) as [|a l IH]; intros ds Eds k0 Hk0; [destruct Hk0|]. cbn [mapM] in Eds. apply bind_Ok in Eds. destruct Eds as ((a'&s1)&E1&Eds). apply bind_Ok in Eds. destruct Eds as (ds'&E2&Eds). apply Ok_inj in Eds. subst ds.
    apply bind_Ok in E1. destruct E1 as (s2&_&E1). apply Ok_inj in E1. injection E1 as <- <-. cbn [dget]. destruct (keqb a k0) eqn:Ek; [eauto|]. apply (IH _ E2). destruct Hk0 as [->|Hk0]; [rewrite keqb_refl in Ek; discriminate Ek|exact Hk0]. }
  apply bind_Ok in H. destruct H as (lists&El&_). cbn [load_seq_list] in El. apply bind_Ok in El. destruct El as (d0&Ed0&El). apply get_or_Ok, Hds in Ed0. rewrite Hs in Ed0. injection Ed0 as <-. apply bind_Ok in El. destruct El as (u&Eu&_).
  assert (Hkk : In k (dataset_keys_of m)) by (apply nodup_In; exact Hin). destruct (mapM_In _ _ _ k Eu Hkk) as (y&Ey&_). destruct (String.eqb_spec k default) as [|_]; [contradiction|].
  destruct (Hdk k Hkk) as (s1&Es1). rewrite (proj2 (get_or_Ok KeyError _ _ _) Es1) in Ey. cbn [bind] in Ey. apply Hds in Es1. rewrite Hs' in Es1. injection Es1 as <-. rewrite Hn in Ey. destruct (Nat.leb_spec (length (all_tags s)) n); [lia|discriminate Ey].
Qed.
Print Assumptions C54_too_few.
Example C54_construct_ex : (exists c, construct ex_given ex_map NoFile None (fun _ => []) = Ok c) /\
  construct [("d1", ex_sub ["a"; "b"; "c"] 0); ("d2", ex_sub ["a"; "b"] 100)] ex_map NoFile None (fun _ => []) = Err OtherException.
Proof. split; [eexists|]; reflexivity. Qed.

(** C54, finding: a list file together with a control dataset only works if it lists all sequences in the order of this dataset. A list in another order makes all loads fail. *)
Theorem C54_control_with_list_refuted : exists c st1, construct ex_given ex_map (ListPerDataset [("d1", ["c"; "b"; "a"]); ("d2", ["C"; "B"; "A"])]) (Some "d1") (fun _ => []) = Ok c /\
  init_seq_order c initial 1 Default = (st1, Ok true) /\ num_seqs st1 = Ok 3 /\ get_tag c st1 0 = Ok "c" /\ snd (load_seqs c st1 0 1) = Err AssertionError.
Proof. eexists _, _. split; [reflexivity|]. split; [reflexivity|]. split; [reflexivity|]. split; reflexivity. Qed.
Print Assumptions C54_control_with_list_refuted.
