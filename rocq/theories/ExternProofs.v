From Coq Require Import List Arith String Lia Bool.
From Verif Require Import Base PyDict ListLemmas ExternModel ExternSpec.
Import ListNotations.

Lemma static_match_ok dims shape : List.length shape = List.length dims ->
  (static_match dims shape = true <->
   forall i n m, nth_error dims i = Some (Static n) -> nth_error shape i = Some m -> m = n).
Proof.
  revert shape. induction dims as [|x dims IH]; intros [|s shape] H; cbn [List.length] in H; try discriminate.
  - cbn. split; [intros _ [|i] n m Hn; discriminate|reflexivity].
  - injection H as H. specialize (IH shape H). destruct x as [n|d]; cbn [static_match].
    + rewrite andb_true_iff, Nat.eqb_eq, IH. split.
      * intros [<- Hs] [|i] a m; cbn; [intros Ea Em; congruence|apply Hs].
      * intros Hs. split; [symmetry; apply (Hs 0); reflexivity|]. intros i a m. apply (Hs (S i)).
    + rewrite IH. split.
      * intros Hs [|i] a m; cbn; [discriminate|apply Hs].
      * intros Hs i a m. apply (Hs (S i)).
Qed.

Lemma get_set sizes d s x : get_size (set_size sizes d s) x = if Nat.eqb d x then Some s else get_size sizes x.
Proof. reflexivity. Qed.

(* what holds for the keys so far *)
Definition sized (b num : nat) (done : list (string * list dim)) (batch : list (string * raw)) (sizes : list (nat * size)) : Prop :=
  (done <> [] -> get_size sizes b = Some (One num)) /\
  (forall k dims d, In (k, dims) done -> nth_error dims 1 = Some (Dyn d) -> get_size sizes d <> None) /\
  (forall d s, get_size sizes d = Some s -> d = b /\ s = One num \/
     d <> b /\ exists k dims r lens, In (k, dims) done /\ nth_error dims 1 = Some (Dyn d) /\ dget batch k = Some r /\
       r_lens r = Some lens /\ s = PerSeq lens).

Lemma extern_key_ok b num done batch sizes k dims r :
  fits b dims num r -> dget batch k = Some r -> sized b num done batch sizes ->
  exists sizes', extern_key (Dyn b) sizes dims (Some r) = Ok sizes' /\ sized b num (done ++ [(k, dims)]) batch sizes'.
Proof.
  intros (rest & shape & -> & Es & El & Hst & Hd) Hg (S1 & S2 & S3). unfold extern_key.
  rewrite Es. cbn [List.length]. rewrite El, Nat.eqb_refl. cbn [assert_ bind static_match].
  rewrite (proj2 (static_match_ok rest shape El) Hst). cbn [assert_ bind].
  (* the batch dim *)
  assert (B : exists sz, match get_size sizes b with Some _ => Ok sizes | None => Ok (set_size sizes b (One num)) end = Ok sz /\
     get_size sz b = Some (One num) /\ forall d, d <> b -> get_size sz d = get_size sizes d).
  { destruct (get_size sizes b) as [s|] eqn:E.
    - exists sizes. split; [reflexivity|]. split; [|auto].
      destruct (S3 b s E) as [[_ ->]|[Hb _]]; [exact E|congruence].
    - eexists. split; [reflexivity|]. rewrite get_set, Nat.eqb_refl. split; [reflexivity|]. intros d Hdb.
      rewrite get_set. destruct (Nat.eqb_spec b d); [congruence|reflexivity]. }
  destruct B as (sz & -> & Gb & Go). cbn [bind].
  assert (In' : forall x, In x done -> In x (done ++ [(k, Dyn b :: rest)])) by (intros; apply in_or_app; auto).
  assert (Old : forall d s, get_size sz d = Some s -> d = b /\ s = One num \/
     d <> b /\ exists k' dims r lens, In (k', dims) (done ++ [(k, Dyn b :: rest)]) /\ nth_error dims 1 = Some (Dyn d) /\
       dget batch k' = Some r /\ r_lens r = Some lens /\ s = PerSeq lens).
  { intros d s H. destruct (Nat.eq_dec d b) as [->|Hne]; [left; split; [reflexivity|congruence]|].
    rewrite Go in H by exact Hne. destruct (S3 d s H) as [[? _]|[_ (k' & ds & r' & lens & H1 & H2)]]; [congruence|].
    right. split; [exact Hne|]. exists k', ds, r', lens. split; [apply In', H1|exact H2]. }
  assert (Old2 : forall k' ds d, In (k', ds) done -> nth_error ds 1 = Some (Dyn d) -> get_size sz d <> None).
  { intros k' ds d Hi Hn. destruct (Nat.eq_dec d b) as [->|Hne]; [congruence|]. rewrite Go by exact Hne. eapply S2; eauto. }
  destruct rest as [|[n|d] rest].
  - exists sz. split; [reflexivity|]. split; [auto|]. split; [|exact Old].
    intros k' ds d Hi Hn. apply in_app_or in Hi as [Hi|[Hi|[]]]; [eapply Old2; eauto|]. injection Hi as <- <-. discriminate.
  - exists sz. split; [reflexivity|]. split; [auto|]. split; [|exact Old].
    intros k' ds d Hi Hn. apply in_app_or in Hi as [Hi|[Hi|[]]]; [eapply Old2; eauto|]. injection Hi as <- <-. discriminate.
  - destruct (Hd d eq_refl) as (Hdb & lens & Hl & _).
    destruct (get_size sz d) as [s|] eqn:E.
    + exists sz. split; [reflexivity|]. split; [auto|]. split; [|exact Old].
      intros k' ds d' Hi Hn. apply in_app_or in Hi as [Hi|[Hi|[]]]; [eapply Old2; eauto|].
      injection Hi as <- <-. cbn in Hn. injection Hn as <-. congruence.
    + rewrite Hl. eexists. split; [reflexivity|]. split; [|split].
      * intros _. rewrite get_set. destruct (Nat.eqb_spec d b); [congruence|exact Gb].
      * intros k' ds d' Hi Hn. rewrite get_set. destruct (Nat.eqb_spec d d'); [discriminate|].
        apply in_app_or in Hi as [Hi|[Hi|[]]]; [eapply Old2; eauto|].
        injection Hi as <- <-. cbn in Hn. congruence.
      * intros d' s. rewrite get_set. destruct (Nat.eqb_spec d d') as [<-|Hne].
        -- intros H. injection H as <-. right. split; [exact Hdb|]. exists k, (Dyn b :: Dyn d :: rest), r, lens.
           split; [apply in_or_app; right; left; reflexivity|]. auto.
        -- apply Old.
Qed.

Lemma extern_keys_ok b num batch template done sizes :
  batch_fits b template num batch -> sized b num done batch sizes ->
  exists sizes', extern_keys (Dyn b) sizes template batch = Ok sizes' /\ sized b num (done ++ template) batch sizes'.
Proof.
  revert done sizes. induction template as [|[k dims] template IH]; intros done sizes Hf Hs; cbn [extern_keys].
  - rewrite app_nil_r. eauto.
  - destruct (Hf k dims (or_introl eq_refl)) as (r & Hr & Hfit). rewrite Hr.
    destruct (extern_key_ok _ _ _ _ _ k _ _ Hfit Hr Hs) as (sizes1 & -> & Hs1). cbn [bind].
    destruct (IH _ _ (fun k' d' H => Hf k' d' (or_intror H)) Hs1) as (sizes2 & -> & Hs2).
    rewrite <- app_assoc in Hs2. eauto.
Qed.

Lemma to_extern_ok b num batch template :
  template <> [] -> batch_fits b template num batch ->
  exists sizes, to_extern template batch = Ok sizes /\ sized b num template batch sizes.
Proof.
  intros Ht Hf. destruct template as [|[k dims] template]; [congruence|].
  destruct (Hf k dims (or_introl eq_refl)) as (r & Hr & (rest & shape & -> & _)).
  unfold to_extern. destruct batch as [|p batch]; [discriminate|]. cbn [List.length Nat.eqb negb assert_ bind].
  apply (extern_keys_ok b num (p :: batch) _ [] []); [exact Hf|].
  split; [congruence|]. split; [intros ? ? ? []|]. intros d s H. discriminate.
Qed.
