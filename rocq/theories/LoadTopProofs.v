From Coq Require Import List ZArith String Bool Lia Sorted Permutation.
From Verif Require Import Base ListLemmas PyDict LoadModel LoadSpec OptimProofs HdfProofs LrKeyProofs LoadProofs LoadLoopProofs.
Import ListNotations.

Section P.
Context {V : Type}.
Implicit Types (p : preload V) (m : module V) (d : list (string * V)) (f : file V) (st : lstate V) (L : list (string * preload V)).

Definition klt (a b : string * preload V) : Prop := slt (fst a) (fst b).

Lemma insert_perm (x : string * preload V) L : Permutation (insert_entry x L) (x :: L).
Proof.
  induction L as [|y r IH]; cbn [insert_entry]; [reflexivity|]. destruct (String.leb (fst x) (fst y)); [reflexivity|].
  rewrite IH. apply perm_swap.
Qed.
Lemma sort_perm L : Permutation (sort_entries L) L.
Proof. induction L as [|x r IH]; cbn [sort_entries]; [constructor|]. rewrite insert_perm. now constructor. Qed.
Lemma insert_sorted (x : string * preload V) L : ~ In (fst x) (map fst L) -> StronglySorted klt L -> StronglySorted klt (insert_entry x L).
Proof.
  induction L as [|y r IH]; cbn [insert_entry map]; intros Hx Hs; [repeat constructor|].
  inversion Hs as [|? ? Hs' Hf]; subst.
  pose proof (leb_cases (fst x) (fst y) (fun E => Hx (or_introl (eq_sym E)))) as C. destruct (String.leb (fst x) (fst y)).
  - constructor; [exact Hs|]. constructor; [exact C|]. eapply Forall_impl; [|exact Hf]. intros z Hz. eapply slt_trans; [exact C|exact Hz].
  - constructor; [apply IH; [intros X; apply Hx; now right|exact Hs']|].
    eapply Permutation_Forall; [symmetry; apply insert_perm|]. constructor; [exact C|exact Hf].
Qed.
Lemma sort_sorted L : NoDup (map fst L) -> StronglySorted klt (sort_entries L).
Proof.
  induction L as [|x r IH]; cbn [sort_entries map]; intros H; [constructor|]. inversion H; subst.
  apply insert_sorted; [|auto]. intros X. apply H2. eapply Permutation_in; [|exact X]. apply Permutation_map, sort_perm.
Qed.
Lemma sort_In L x : In x (sort_entries L) <-> In x L.
Proof. split; apply Permutation_in; [|symmetry]; apply sort_perm. Qed.

Lemma convert_spec m l m' : module_ok m -> convert m l = Ok m' ->
  (forall n, In n l -> exists v, In (n, (KParam, v)) m) /\
  forall n k v, In (n, (k, v)) m' <-> (In n l /\ k = KNonPersistent /\ exists k0, In (n, (k0, v)) m) \/ (~ In n l /\ In (n, (k, v)) m).
Proof.
  intros Hm. unfold convert. destruct (forallb _ l) eqn:E; [|discriminate]. intros [= <-]. split.
  - intros n Hn. rewrite forallb_forall in E. specialize (E n Hn). destruct (dget m n) as [[[] v]|] eqn:Ed; try discriminate.
    exists v. now apply dget_In in Ed.
  - intros n k v. rewrite in_map_iff. split.
    + intros ((n', (k', v')) & Ex & H). cbn [fst snd] in Ex. destruct (mem n' l) eqn:Em.
      * injection Ex as -> <- ->. left. apply mem_In in Em. split; [exact Em|]. split; [reflexivity|]. now exists k'.
      * injection Ex as -> -> ->. right. split; [now apply mem_nIn|exact H].
    + intros [(Hn & -> & k0 & H)|[Hn H]].
      * exists (n, (k0, v)). cbn [fst snd]. apply mem_In in Hn. rewrite Hn. auto.
      * exists (n, (k, v)). cbn [fst snd]. apply mem_nIn in Hn. rewrite Hn. auto.
Qed.
Lemma convert_ok m l : module_ok m -> (forall n, In n l -> exists v, In (n, (KParam, v)) m) -> exists m', convert m l = Ok m'.
Proof.
  intros Hm H. unfold convert. rewrite (proj2 (forallb_forall _ l)); [eexists; reflexivity|].
  intros n Hn. destruct (H n Hn) as (v & X). apply (In_dget (E:=EqB_string)) in X; [|exact Hm]. now rewrite X.
Qed.
Lemma convert_nodup m l m' : convert m l = Ok m' -> map fst m' = map fst m.
Proof.
  unfold convert. destruct (forallb _ l); [|discriminate]. intros [= <-]. rewrite map_map. apply map_ext. intros (n, (k, v)). cbn. now destruct (mem n l).
Qed.

Lemma load_inv t start epoch main create noncrit L r :
  let first := first_epoch t start epoch main in
  let m0 := create (fst (created start epoch main)) (snd (created start epoch main)) in
  preloads_ok L -> module_ok m0 -> load_model t start epoch main create noncrit L = Ok r ->
  exists st, preload_loop (match t with TTrain => true | _ => false end) first (load_main m0 main) (rev (map snd (sort_entries L))) = Ok st /\
    Inv t first main m0 (map snd (sort_entries L)) st /\
    (forall p, In p (map snd L) -> used t first p -> forall f, p_source p = SFile f -> is_ok (preload_state p f) = true) /\
    convert (l_model st) (l_ignore st) = Ok (r_model r) /\
    (forall n, In n (l_missing st) -> In n noncrit) /\ r_ignore r = l_ignore st.
Proof.
  intros first m0 [HL Hok] Hm. unfold load_model. fold (loaded_epoch start epoch main). fold (created start epoch main).
  fold (first_epoch t start epoch main). fold first. destruct (created start epoch main) as [e2 s2] eqn:Ec.
  cbn [fst snd] in m0. intros H. 
  assert (match main with
    | Some f => match loaded_epoch start epoch main with
                | Some e => (e, (match f_step f with Some s => s | None => 1 end - 1)%Z)
                | None => (or_one start, 0%Z) end
    | None => (or_one start, 0%Z) end = (e2, s2)) as Ec' by (rewrite <- Ec; unfold created; now destruct main).
  rewrite Ec' in H. fold m0 in H. apply bind_Ok in H as (st & Hst & H). apply bind_Ok in H as (m' & Hc & H).
  destruct (diff (l_missing st) noncrit) as [|x y] eqn:Ed; [|discriminate]. injection H as <-. cbn [r_model r_ignore].
  rewrite map_rev in Hst.
  assert (forall p, In p (map snd (sort_entries L)) -> In p (map snd L)) as HI.
  { intros p Hp. apply in_map_iff in Hp as (x & <- & Hx). apply in_map. now apply sort_In. }
  assert (forall p, In p (map snd L) -> In p (map snd (sort_entries L))) as HI'.
  { intros p Hp. apply in_map_iff in Hp as (x & <- & Hx). apply in_map. now apply sort_In. }
  destruct (inv_loop t first main m0 Hm (map snd (sort_entries L)) st) as [I Hs]; [|exact Hst|].
  { intros p Hp. apply HI in Hp. apply in_map_iff in Hp as ((key, p') & <- & Hp). now apply (Hok key). }
  exists st. split; [exact Hst|]. split; [exact I|]. split; [intros p Hp; apply Hs; now apply HI'|]. split; [exact Hc|]. split; [|reflexivity].
  intros n Hn. destruct (mem n noncrit) eqn:Em; [now apply mem_In|]. apply mem_nIn in Em.
  assert (In n (diff (l_missing st) noncrit)) as X by (now apply In_diff). rewrite Ed in X. destruct X.
Qed.

Section Loaded.
Variables (t : task) (first : bool) (main : option (file V)) (m0 : module V).

Lemma leb_slt_false a b : slt a b -> String.leb b a = true -> False.
Proof. intros H1 H2. apply slt_leb in H1 as H3. assert (a = b) as -> by now apply str_leb_antisym. now apply slt_irrefl in H1. Qed.

Lemma used_dec p : used t first p \/ ~ used t first p.
Proof. unfold used. destruct (p_init p), t, first; (left; congruence) || (right; congruence) || tauto || (left; discriminate). Qed.

Lemma val_preloaded L n v : StronglySorted klt L -> preloaded t first L n v -> val t first main m0 (map snd L) n v.
Proof.
  induction L as [|(k1, p1) L IH]; intros Hs (key & p & Hin & Hu & Hg & Hmin); [destruct Hin|].
  inversion Hs as [|? ? Hs' Hf]; subst. cbn [map snd val]. destruct Hin as [[= -> ->]|Hin]; [left; auto|].
  rewrite Forall_forall in Hf. specialize (Hf _ Hin) as Hlt. unfold klt in Hlt. cbn [fst] in Hlt.
  right. split.
  - intros (Hu1 & w & Hw). specialize (Hmin k1 p1 w (or_introl eq_refl) Hu1 Hw). eapply leb_slt_false; eauto.
  - apply IH; [exact Hs'|]. exists key, p. split; [exact Hin|]. split; [exact Hu|]. split; [exact Hg|].
    intros key' p' v' Hin'. apply Hmin. now right.
Qed.
Lemma val_not_preloaded L n v : ~ has_preload t first L n ->
  match main_get main n with Some w => v = w | None => value_of m0 n v end -> val t first main m0 (map snd L) n v.
Proof.
  intros Hn Hv. induction L as [|(k1, p1) L IH]; cbn [map snd val]; [exact Hv|]. right. split.
  - intros (Hu & w & Hw). apply Hn. exists k1, p1, w. split; [now left|auto].
  - apply IH. intros (k & p & w & Hin & X). apply Hn. exists k, p, w. split; [now right|exact X].
Qed.
Lemma load_in_spec L n : load_in t first main (map snd L) n <-> main_get main n <> None \/ has_preload t first L n.
Proof.
  unfold load_in, has_preload. split.
  - intros [H|(p & v & Hin & X)]; [auto|]. right. apply in_map_iff in Hin as ((k, p') & <- & Hin). now exists k, p', v.
  - intros [H|(k & p & v & Hin & X)]; [auto|]. right. exists p, v. split; [|exact X]. change p with (snd (k, p)). now apply in_map.
Qed.
Lemma has_preload_sort L n : has_preload t first (sort_entries L) n <-> has_preload t first L n.
Proof. unfold has_preload. split; intros (k & p & v & H & X); exists k, p, v; (split; [now apply sort_In|exact X]). Qed.
Lemma preloaded_sort L n v : preloaded t first L n v -> preloaded t first (sort_entries L) n v.
Proof.
  intros (k & p & H & Hu & Hg & Hm). exists k, p. split; [now apply sort_In|]. split; [exact Hu|]. split; [exact Hg|].
  intros k' p' v' H'. apply Hm. now apply sort_In.
Qed.

Lemma miss_persist (l : list (preload V)) n : is_param m0 n -> ~ load_in t first main l n ->
  (forall p q, In p l -> used t first p -> p_source p = SPattern q -> q n = false) ->
  main <> None \/ (exists p f, In p l /\ used t first p /\ p_source p = SFile f /\ p_ignore_missing p = false /\ String.prefix (p_prefix p) n = true) ->
  miss t first main m0 l n.
Proof.
  intros Hp. induction l as [|p l IH]; intros Hl Hq Hor; cbn [miss].
  - destruct Hor as [H|(p & f & [] & _)]. split; [exact H|]. split; [exact Hp|]. destruct (main_get main n) eqn:E; [|reflexivity].
    exfalso. apply Hl. left. congruence.
  - rewrite load_in_cons in Hl. destruct (used_dec p) as [Hu|Hu].
    + right. split; [exact Hu|]. destruct (p_source p) as [q|f] eqn:Es.
      * split; [|eapply (Hq p); [now left|exact Hu|exact Es]]. apply IH; [tauto| |].
        -- intros p' q' Hin. apply Hq. now right.
        -- destruct Hor as [H|(p' & f & [<-|Hin] & X)]; [auto|exfalso; destruct X as (_ & X & _); congruence|]. right. now exists p', f.
      * split; [intros v Hg; apply Hl; left; split; [exact Hu|now exists v]|].
        destruct Hor as [H|(p' & f' & [<-|Hin] & X)].
        -- left. apply IH; [tauto| |auto]. intros p' q' Hin. apply Hq. now right.
        -- right. destruct X as (_ & _ & X & Y). split; [exact X|]. split; [exact Hp|]. split; [exact Y|tauto].
        -- left. apply IH; [tauto| |right; now exists p', f']. intros p'' q' Hin'. apply Hq. now right.
    + left. split; [exact Hu|]. apply IH; [tauto| |].
      * intros p' q' Hin. apply Hq. now right.
      * destruct Hor as [H|(p' & f & [<-|Hin] & X)]; [auto|tauto|]. right. now exists p', f.
Qed.
End Loaded.

Lemma readable_ok p f : preload_ok p -> p_source p = SFile f -> readable p -> is_ok (preload_state p f) = true.
Proof.
  intros [Hf (R1 & R2 & R3)] Hs (f' & d & Hs' & Hd & Hmap). rewrite Hs in Hf, Hs'. injection Hs' as <-.
  unfold preload_state. assert (select p f = Ok d) as Ed.
  { unfold select. destruct (p_ckpt_key p) as [k|]; [|congruence]. destruct Hf as (H1 & _). apply (In_dget (E:=EqB_string)) in Hd; [|exact H1]. now rewrite Hd. }
  rewrite Ed. cbn [bind]. destruct (raw_spec p f d Hs Hf Ed) as [Hn Hr].
  set (d0 := drop_ignored p (add_prefix p d)) in *. clearbody d0.
  assert (forall new old, In (new, old) (p_mapping p) -> exists v, dget d0 old = Some v) as Hm.
  { intros new old Hin. destruct (Hmap new old Hin) as (v & Hv). exists v. now apply Hr. }
  clear Hmap Hr Hd Ed. revert d0 Hn Hm. revert R1 R2 R3. induction (p_mapping p) as [|[new old] l IH]; intros R1 R2 R3 d0 Hn Hm; [reflexivity|].
  cbn [map_names]. destruct (Hm new old (or_introl eq_refl)) as (v & Hv). rewrite Hv.
  cbn [map fst snd] in R1, R2. inversion R1; inversion R2; subst. apply IH; auto.
  - intros a b c e Hab Hce. apply (R3 a b c e); now right.
  - apply dict_ok_dset, dict_ok_ddel, Hn.
  - intros a b Hab. destruct (Hm a b (or_intror Hab)) as (w & Hw). exists w. rewrite dget_dset_neq, dget_ddel; [| exact Hn |].
    + assert (keqb old b = false) as ->; [|exact Hw]. apply keqb_neq. intros <-. apply H5. change old with (snd (a, old)). now apply in_map.
    + apply (R3 new old a b); [now left|now right].
Qed.
End P.
