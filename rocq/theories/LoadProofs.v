From Coq Require Import List ZArith String Bool Lia Sorted Permutation.
From Verif Require Import Base ListLemmas PyDict LoadModel LoadSpec OptimProofs.
Import ListNotations.

Lemma mem_In k l : mem k l = true <-> In k l.
Proof.
  unfold mem. rewrite existsb_exists. split.
  - intros (x & Hx & E). apply String.eqb_eq in E. now subst.
  - intros H. exists k. split; [exact H|apply String.eqb_refl].
Qed.
Lemma mem_nIn k l : mem k l = false <-> ~ In k l.
Proof. rewrite <- mem_In. destruct (mem k l); split; congruence. Qed.
Lemma In_diff k a b : In k (diff a b) <-> In k a /\ ~ In k b.
Proof. unfold diff. rewrite filter_In, negb_true_iff, mem_nIn. tauto. Qed.
Lemma In_inter k a b : In k (inter a b) <-> In k a /\ In k b.
Proof. unfold inter. rewrite filter_In, mem_In. tauto. Qed.

Lemma dget_iff {V} (d : list (string * V)) n v : NoDup (map fst d) -> (dget d n = Some v <-> In (n, v) d).
Proof. intros H. split; [apply dget_In|now apply In_dget]. Qed.
Lemma dget_ex {V} (d : list (string * V)) n : (exists v, dget d n = Some v) <-> In n (map fst d).
Proof.
  change (map fst d) with (dkeys d). rewrite <- dget_keys. destruct (dget d n) as [v|]; split; intros H.
  - discriminate. - now exists v. - now destruct H as (v & H). - congruence.
Qed.

Section P.
Context {V : Type}.
Implicit Types (p : preload V) (m : module V) (d : list (string * V)) (f : file V).

Lemma prefix_inj (q a b : string) : (q ++ a)%string = (q ++ b)%string -> a = b.
Proof. induction q as [|c q IH]; cbn; [auto|]. intros [= H]. auto. Qed.

Lemma add_prefix_In p d n v : In (n, v) (add_prefix p d) <-> exists n0, In (n0, v) d /\ n = (p_prefix p ++ n0)%string.
Proof.
  unfold add_prefix. destruct (String.eqb (p_prefix p) "") eqn:E.
  - apply String.eqb_eq in E. rewrite E. cbn [String.append]. split; [intros H; now exists n|]. intros (n0 & H & ->). exact H.
  - rewrite in_map_iff. split.
    + intros ((n0, w) & [= <- <-] & H). now exists n0.
    + intros (n0 & H & ->). now exists (n0, v).
Qed.
Lemma add_prefix_nodup p d : NoDup (map fst d) -> NoDup (map fst (add_prefix p d)).
Proof.
  unfold add_prefix. destruct (String.eqb (p_prefix p) "") eqn:E; [auto|]. intros H. rewrite map_map. cbn [fst].
  rewrite <- (map_map fst (fun x => (p_prefix p ++ x)%string)). apply FinFun.Injective_map_NoDup; [|exact H].
  intros a b. apply prefix_inj.
Qed.

Lemma filter_nodup_keys {A} (g : string * A -> bool) (d : list (string * A)) : NoDup (map fst d) -> NoDup (map fst (filter g d)).
Proof.
  induction d as [|a d IH]; cbn [filter map]; [auto|]. intros H. inversion H; subst. destruct (g a); [|auto].
  cbn [map]. constructor; [|auto]. intros Hin. apply in_map_iff in Hin as (x & E & Hx). apply filter_In in Hx as [Hx _].
  apply H2. rewrite <- E. now apply in_map.
Qed.

Lemma drop_In p d n v : In (n, v) (drop_ignored p d) <->
  In (n, v) d /\ ~ In n (p_ignore p) /\ (forall q, In q (p_ignore_prefixes p) -> String.prefix q n = false).
Proof.
  unfold drop_ignored. rewrite filter_In. cbn [fst]. rewrite negb_true_iff, orb_false_iff, mem_nIn.
  split; intros (H1 & H2 & H3); (split; [exact H1|split; [exact H2|]]).
  - intros q Hq. destruct (String.prefix q n) eqn:E; [|reflexivity].
    assert (existsb (fun q0 => String.prefix q0 n) (p_ignore_prefixes p) = true) as X by (apply existsb_exists; now exists q).
    congruence.
  - destruct (existsb _ _) eqn:E; [|reflexivity]. apply existsb_exists in E as (q & Hq & E). rewrite H3 in E by exact Hq. discriminate.
Qed.

Lemma select_spec p f d : file_ok f -> select p f = Ok d ->
  NoDup (map fst d) /\ (forall d', match p_ckpt_key p with Some k => In (k, d') (f_sub f) | None => d' = f_flat f end <-> d' = d).
Proof.
  intros (H1 & H2 & H3). unfold select. destruct (p_ckpt_key p) as [k|].
  - destruct (dget (f_sub f) k) as [d0|] eqn:E; [|discriminate]. intros [= <-].
    split; [apply (H3 k); now apply dget_In|]. intros d'. rewrite <- (dget_iff _ _ _ H1), E. split; [now intros [= ->]|now intros ->].
  - intros [= <-]. split; [exact H2|]. intros d'. tauto.
Qed.

Lemma raw_spec p f d : p_source p = SFile f -> file_ok f -> select p f = Ok d ->
  NoDup (map fst (drop_ignored p (add_prefix p d))) /\
  forall n v, dget (drop_ignored p (add_prefix p d)) n = Some v <-> raw p n v.
Proof.
  intros Hs Hf Hd. destruct (select_spec p f d Hf Hd) as [Hn Hu].
  assert (NoDup (map fst (drop_ignored p (add_prefix p d)))) as Hn' by (apply filter_nodup_keys, add_prefix_nodup, Hn).
  split; [exact Hn'|]. intros n v. rewrite (dget_iff _ _ _ Hn'), drop_In, add_prefix_In. split.
  - intros ((n0 & H1 & H2) & H3 & H4). exists f, d, n0. repeat (split; [assumption || now apply Hu|]). auto.
  - intros (f' & d' & n0 & H0 & H1 & H2 & H3 & H4 & H5). rewrite Hs in H0. injection H0 as <-. apply Hu in H1. subst d'.
    split; [now exists n0|auto].
Qed.

Lemma map_names_spec (l : list (string * string)) d d' :
  NoDup (map fst l) -> NoDup (map snd l) -> (forall a b c e, In (a, b) l -> In (c, e) l -> a <> e) ->
  NoDup (map fst d) -> map_names l d = Ok d' ->
  NoDup (map fst d') /\
  forall n v, dget d' n = Some v <->
    (exists old, In (n, old) l /\ dget d old = Some v) \/
    ((forall new old, In (new, old) l -> n <> new /\ n <> old) /\ dget d n = Some v).
Proof.
  revert d. induction l as [|[new old] l IH]; intros d H1 H2 H3 Hd; cbn [map_names].
  - intros [= <-]. split; [exact Hd|]. intros n v. split; [intros H; right; split; [intros ? ? []|exact H]|].
    intros [(o & [] & _)|[_ H]]. exact H.
  - destruct (dget d old) as [v0|] eqn:Eo; [|discriminate]. intros H. cbn [map fst snd] in H1, H2. inversion H1 as [|? ? Ha H1']; inversion H2 as [|? ? Hb H2']; subst.
    assert (forall x, dget (dset (ddel d old) new v0) x = if keqb new x then Some v0 else if keqb old x then None else dget d x) as G
      by (intros x; now rewrite dget_dset, dget_ddel).
    apply IH in H as [Hn' Hg]; [|exact H1'|exact H2'|intros a b c e Hab Hce; apply (H3 a b c e); now right|apply dict_ok_dset, dict_ok_ddel; exact Hd].
    assert (new <> old) as Hno by (apply (H3 new old new old); now left).
    split; [exact Hn'|]. intros n v. rewrite Hg. split.
    + intros [(o & Ho & E)|[Hall E]].
      * rewrite G in E. destruct (keqb new o) eqn:E1.
        { apply keqb_eq in E1. subst o. exfalso. apply (H3 new old n new); [now left|now right|reflexivity]. }
        destruct (keqb old o); [discriminate|]. left. exists o. split; [now right|exact E].
      * rewrite G in E. destruct (keqb new n) eqn:E1.
        { apply keqb_eq in E1. subst n. left. exists old. split; [now left|congruence]. }
        destruct (keqb old n) eqn:E2; [discriminate|]. apply keqb_neq in E1, E2. right. split; [|exact E].
        intros a b [[= <- <-]|Hab]; [split; congruence|now apply (Hall a b)].
    + intros [(o & [[= <- <-]|Ho] & E)|[Hall E]].
      * right. split.
        { intros a b Hab. split; [|intros <-].
          - intros <-. apply Ha. change new with (fst (new, b)). now apply in_map.
          - apply (H3 new old a new); [now left|now right|reflexivity]. }
        rewrite G, keqb_refl. congruence.
      * left. exists o. split; [exact Ho|]. rewrite G.
        assert (keqb new o = false) as -> by (apply keqb_neq; apply (H3 new old n o); [now left|now right]).
        assert (keqb old o = false) as -> by (apply keqb_neq; intros <-; apply Hb; change old with (snd (n, old)); now apply in_map).
        exact E.
      * right. split; [intros a b Hab; apply Hall; now right|]. rewrite G. destruct (Hall new old (or_introl eq_refl)) as [X Y].
        assert (keqb new n = false) as -> by (apply keqb_neq; congruence).
        assert (keqb old n = false) as -> by (apply keqb_neq; congruence). exact E.
Qed.

Lemma state_spec p f sd : p_source p = SFile f -> preload_ok p -> preload_state p f = Ok sd ->
  NoDup (map fst sd) /\ forall n v, dget sd n = Some v <-> gives p n v.
Proof.
  intros Hs [Hf (R1 & R2 & R3)]. rewrite Hs in Hf. unfold preload_state. intros H. apply bind_Ok in H as (d & Ed & H).
  destruct (raw_spec p f d Hs Hf Ed) as [Hn Hr].
  apply map_names_spec in H as [Hn' Hg]; auto. split; [exact Hn'|]. intros n v. rewrite Hg. unfold gives.
  split; (intros [(o & Ho & E)|[Ha E]]; [left; exists o; split; [exact Ho|now apply Hr]|right; split; [exact Ha|now apply Hr]]).
Qed.

Lemma state_keys_spec p f sd n : p_source p = SFile f -> preload_ok p -> preload_state p f = Ok sd ->
  (In n (map fst sd) <-> exists v, gives p n v).
Proof.
  intros Hs Hp H. destruct (state_spec p f sd Hs Hp H) as [_ Hg]. rewrite <- dget_ex. split; intros (v & E); exists v; now apply Hg.
Qed.

Lemma gives_fun p n v v' : preload_ok p -> gives p n v -> gives p n v' -> (exists f, p_source p = SFile f /\ is_ok (preload_state p f) = true) -> v = v'.
Proof.
  intros Hp H1 H2 (f & Hs & Ho). destruct (preload_state p f) as [sd|] eqn:E; [|discriminate].
  destruct (state_spec p f sd Hs Hp E) as [_ Hg]. apply Hg in H1, H2. congruence.
Qed.
Lemma gives_file p n v : gives p n v -> exists f, p_source p = SFile f.
Proof. intros [(o & _ & (f & _ & _ & H & _))|[_ (f & _ & _ & H & _)]]; now exists f. Qed.

(* modules *)
Lemma state_dict_In m n v : In (n, v) (state_dict m) <-> exists k, In (n, (k, v)) m /\ k <> KNonPersistent.
Proof.
  unfold state_dict. rewrite in_flat_map. split.
  - intros ((n', (k, w)) & H & E). cbn [fst snd] in E. destruct k; cbn [persistent] in E; [| |destruct E].
    + destruct E as [[= <- <-]|[]]. exists KParam. split; [exact H|discriminate].
    + destruct E as [[= <- <-]|[]]. exists KBuffer. split; [exact H|discriminate].
  - intros (k & H & Hk). exists (n, (k, v)). split; [exact H|]. destruct k; cbn; auto.
Qed.
Lemma state_keys_In m n : In n (state_keys m) <-> is_param m n.
Proof.
  unfold state_keys, is_param. rewrite in_map_iff. split.
  - intros ((n', v) & <- & H). apply state_dict_In in H as (k & H & Hk). now exists k, v.
  - intros (k & v & H & Hk). exists (n, v). split; [reflexivity|]. apply state_dict_In. now exists k.
Qed.
Lemma state_dict_nodup m : module_ok m -> NoDup (map fst (state_dict m)).
Proof.
  unfold module_ok. induction m as [|[n [k v]] m IH]; cbn [map fst]; intros H; [constructor|]. inversion H; subst.
  assert (state_dict ((n, (k, v)) :: m) = (if persistent k then [(n, v)] else []) ++ state_dict m) as -> by reflexivity.
  destruct (persistent k); cbn [app map fst]; [|auto]. constructor; [|auto].
  intros Hin. apply in_map_iff in Hin as ((n', w) & E & Hin). cbn [fst] in E. subst n'. apply state_dict_In in Hin as (k' & Hin & _).
  apply H2. change n with (fst (n, (k', w))). now apply in_map.
Qed.

Lemma alike_names m m' : alike m m' -> map fst m = map fst m'.
Proof. intros H. apply (f_equal (map fst)) in H. rewrite !map_map in H. exact H. Qed.
Lemma alike_In m m' n k v : alike m m' -> In (n, (k, v)) m -> exists v', In (n, (k, v')) m'.
Proof.
  intros H Hin. assert (In (n, k) (map (fun x => (fst x, fst (snd x))) m)) as X.
  { apply in_map_iff. now exists (n, (k, v)). }
  rewrite H in X. apply in_map_iff in X as ((n', (k', v')) & [= <- <-] & X). now exists v'.
Qed.
Lemma alike_sym m m' : alike m m' -> alike m' m.
Proof. unfold alike. congruence. Qed.
Lemma alike_trans m1 m2 m3 : alike m1 m2 -> alike m2 m3 -> alike m1 m3.
Proof. unfold alike. congruence. Qed.
Lemma alike_param m m' n : alike m m' -> is_param m n -> is_param m' n.
Proof. intros H (k & v & Hin & Hk). destruct (alike_In _ _ _ _ _ H Hin) as (v' & X). now exists k, v'. Qed.
Lemma alike_ok m m' : alike m m' -> module_ok m -> module_ok m'.
Proof. unfold module_ok. intros H. now rewrite (alike_names _ _ H). Qed.

Lemma lsd_alike m sd : alike (fst (fst (load_state_dict m sd))) m.
Proof. unfold alike, load_state_dict. cbn [fst]. rewrite map_map. reflexivity. Qed.

Lemma in_ok m n k v k' v' : module_ok m -> In (n, (k, v)) m -> In (n, (k', v')) m -> k = k' /\ v = v'.
Proof.
  intros H H1 H2. apply (In_dget (E:=EqB_string)) in H1; [|exact H]. apply (In_dget (E:=EqB_string)) in H2; [|exact H].
  rewrite H1 in H2. injection H2 as -> ->. auto.
Qed.

Lemma lsd_value m sd n v : module_ok m -> is_param m n ->
  (value_of (fst (fst (load_state_dict m sd))) n v <-> match dget sd n with Some w => v = w | None => value_of m n v end).
Proof.
  intros Hm (k0 & v0 & H0 & Hk0). unfold value_of, load_state_dict. cbn [fst]. split.
  - intros (k & H). apply in_map_iff in H as ((n', (k', v')) & E & H). cbn [fst snd] in E. injection E as -> -> E.
    destruct (in_ok _ _ _ _ _ _ Hm H H0) as [-> ->]. destruct k0; [| |congruence]; cbn [persistent] in E.
    + destruct (dget sd n); [congruence|]. exists KParam. congruence.
    + destruct (dget sd n); [congruence|]. exists KBuffer. congruence.
  - intros H. exists k0. apply in_map_iff. exists (n, (k0, v0)). split; [|exact H0]. cbn [fst snd]. do 2 f_equal.
    assert (persistent k0 = true) as -> by (destruct k0; congruence || reflexivity).
    destruct (dget sd n) as [w|]; [congruence|]. destruct H as (k & H). now destruct (in_ok _ _ _ _ _ _ Hm H H0).
Qed.
Lemma lsd_nonpersistent m sd n v : In (n, (KNonPersistent, v)) (fst (fst (load_state_dict m sd))) <-> In (n, (KNonPersistent, v)) m.
Proof.
  unfold load_state_dict. cbn [fst]. rewrite in_map_iff. split.
  - intros ((n', (k', v')) & E & H). cbn [fst snd] in E. injection E as -> Ek E. subst k'. cbn [persistent] in E. congruence.
  - intros H. exists (n, (KNonPersistent, v)). split; [reflexivity|exact H].
Qed.
End P.
