From Coq Require Import List ZArith String Bool Lia Sorted Permutation.
From Verif Require Import Base ListLemmas PyDict LoadModel LoadSpec OptimProofs HdfProofs LrKeyProofs LoadProofs LoadLoopProofs LoadTopProofs.
Import ListNotations.

Section P.
Context {V : Type}.
Implicit Types (p : preload V) (m : module V) (d : list (string * V)) (f : file V) (st : lstate V) (L : list (string * preload V)).

Lemma convert_value m l m' n v : module_ok m -> convert m l = Ok m' -> (value_of m' n v <-> value_of m n v).
Proof.
  intros Hm Hc. destruct (convert_spec m l m' Hm Hc) as [_ Hs]. unfold value_of. split.
  - intros (k & H). apply Hs in H as [(_ & _ & k0 & H)|[_ H]]; [now exists k0|now exists k].
  - intros (k & H). destruct (mem n l) eqn:E.
    + apply mem_In in E. exists KNonPersistent. apply Hs. left. split; [exact E|]. split; [reflexivity|]. now exists k.
    + apply mem_nIn in E. exists k. apply Hs. now right.
Qed.

Lemma main_params_ok f : file_ok f -> NoDup (map fst (main_params f)).
Proof.
  intros (H1 & H2 & H3). unfold main_params. destruct (dget (f_sub f) "model"%string) as [d|] eqn:E; [|exact H2].
  apply (H3 "model"%string). now apply dget_In in E.
Qed.

Lemma load_values t start epoch main create noncrit L r n :
  let first := first_epoch t start epoch main in
  let m0 := create (fst (created start epoch main)) (snd (created start epoch main)) in
  preloads_ok L -> module_ok m0 -> (forall f, main = Some f -> file_ok f) ->
  load_model t start epoch main create noncrit L = Ok r -> is_param m0 n ->
  (forall v, preloaded t first L n v -> value_of (r_model r) n v) /\
  (~ has_preload t first L n -> forall f v, main = Some f -> In (n, v) (main_params f) -> value_of (r_model r) n v) /\
  (~ has_preload t first L n -> (forall f v, main = Some f -> ~ In (n, v) (main_params f)) ->
    forall v, value_of m0 n v -> value_of (r_model r) n v).
Proof.
  intros first m0 HL Hm Hmain H Hp. destruct (load_inv t start epoch main create noncrit L r HL Hm H) as (st & _ & I & Hs & Hc & _).
  assert (module_ok (l_model st)) as Hok by (eapply alike_ok; [apply alike_sym, I|exact Hm]).
  assert (forall v, val t first main m0 (map snd (sort_entries L)) n v -> value_of (r_model r) n v) as Hv.
  { intros v Hv. apply (convert_value _ _ _ n v Hok Hc). now apply I. }
  split; [|split].
  - intros v Hpre. apply Hv, val_preloaded; [apply sort_sorted, HL|now apply preloaded_sort].
  - intros Hno f v Ef Hin. apply Hv, val_not_preloaded; [intros X; apply Hno; now apply has_preload_sort|].
    unfold main_get. rewrite Ef. apply (In_dget (E:=EqB_string)) in Hin; [|apply main_params_ok; now apply Hmain]. now rewrite Hin.
  - intros Hno Hnm v Hval. apply Hv, val_not_preloaded; [intros X; apply Hno; now apply has_preload_sort|].
    unfold main_get. destruct main as [f|]; [|exact Hval]. destruct (dget (main_params f) n) as [w|] eqn:E; [|exact Hval].
    apply dget_In in E. destruct (Hnm f w eq_refl E).
Qed.

Lemma load_checked t start epoch main create noncrit L r n :
  let first := first_epoch t start epoch main in
  let m0 := create (fst (created start epoch main)) (snd (created start epoch main)) in
  preloads_ok L -> module_ok m0 ->
  load_model t start epoch main create noncrit L = Ok r -> is_param m0 n -> ~ In n noncrit ->
  (main <> None \/ exists key p f, In (key, p) L /\ used t first p /\ p_source p = SFile f /\
     p_ignore_missing p = false /\ String.prefix (p_prefix p) n = true) ->
  (exists f v, main = Some f /\ In (n, v) (main_params f)) \/ has_preload t first L n \/ random_ok t first L n.
Proof.
  intros first m0 HL Hm H Hp Hnc Hor. destruct (load_inv t start epoch main create noncrit L r HL Hm H) as (st & _ & I & Hs & Hc & Hmiss & _).
  (* all three alternatives are decidable on the sorted list *)
  assert (~ miss t first main m0 (map snd (sort_entries L)) n) as Hn.
  { intros X. apply Hnc, Hmiss. now apply I. }
  assert (In n (l_loaded st) \/ ~ In n (l_loaded st)) as [Hl|Hl] by (destruct (in_dec String.string_dec n (l_loaded st)); auto).
  - apply I in Hl. apply load_in_spec in Hl as [Hl|Hl].
    + left. unfold main_get in Hl. destruct main as [f|]; [|congruence]. destruct (dget (main_params f) n) as [w|] eqn:E; [|congruence].
      exists f, w. split; [reflexivity|now apply dget_In in E].
    + right. left. now apply has_preload_sort.
  - assert ((exists x, In x L /\ used t first (snd x) /\ match p_source (snd x) with SPattern q => q n = true | _ => False end) \/
            ~ (exists x, In x L /\ used t first (snd x) /\ match p_source (snd x) with SPattern q => q n = true | _ => False end)) as [Hr|Hr].
    { clear -n. induction L as [|x L IH]; [right; intros (x & [] & _)|].
      destruct IH as [(y & Hy & Y)|IH]; [left; exists y; split; [now right|exact Y]|].
      destruct (used_dec t first (snd x)) as [Hu|Hu]; [destruct (p_source (snd x)) as [q|f] eqn:Es; [destruct (q n) eqn:Eq|]|].
      - left. exists x. split; [now left|]. split; [exact Hu|]. now rewrite Es.
      - right. intros (y & [<-|Hy] & Y & Z); [rewrite Es in Z; congruence|]. apply IH. now exists y.
      - right. intros (y & [<-|Hy] & Y & Z); [now rewrite Es in Z|]. apply IH. now exists y.
      - right. intros (y & [<-|Hy] & Y & Z); [tauto|]. apply IH. now exists y. }
    + right. right. destruct Hr as ((key, p) & Hin & Hu & Hq). cbn [snd] in *. destruct (p_source p) as [q|] eqn:Es; [|destruct Hq].
      now exists key, p, q.
    + exfalso. apply Hn, miss_persist; [exact Hp|intros X; apply Hl; now apply I| |].
      * intros p q Hin Hu Es. destruct (q n) eqn:Eq; [|reflexivity]. exfalso. apply Hr.
        apply in_map_iff in Hin as (x & <- & Hin). exists x. split; [now apply sort_In|]. split; [exact Hu|]. now rewrite Es.
      * destruct Hor as [X|(key & p & f & Hin & X)]; [now left|]. right. exists p, f. split; [|exact X].
        change p with (snd (key, p)). apply in_map. now apply sort_In.
Qed.

Lemma load_accept0 t start epoch main create noncrit L :
  let first := first_epoch t start epoch main in
  let m0 := create (fst (created start epoch main)) (snd (created start epoch main)) in
  preloads_ok L -> module_ok m0 -> 
  (forall key p, In (key, p) L -> p_init p <> InitOther) ->
  (forall key p f, In (key, p) L -> used t first p -> p_source p = SFile f -> is_ok (preload_state p f) = true /\ relevant p m0) ->
  (forall key p n v k w, In (key, p) L -> p_init p = InitAlways -> gives p n v -> In (n, (k, w)) m0 -> k <> KBuffer) ->
  (forall n, is_param m0 n -> ~ In n noncrit -> (exists f v, main = Some f /\ In (n, v) (main_params f)) \/ has_preload t first L n) ->
  (forall f, main = Some f -> file_ok f) ->
  exists r, load_model t start epoch main create noncrit L = Ok r.
Proof.
  intros first m0 HL Hm Hi Hr Ha Hall Hmain.
  assert (forall p, In p (map snd (sort_entries L)) -> exists key, In (key, p) L) as HI.
  { intros p Hp. apply in_map_iff in Hp as ((key, p') & <- & Hx). exists key. now apply sort_In. }
  destruct (loop_ok t first main m0 Hm (map snd (sort_entries L))) as (st & Hst).
  { intros p Hp. destruct (HI p Hp) as (key & Hin). destruct HL as [_ HL]. now apply (HL key). }
  { intros p Hp. destruct (HI p Hp) as (key & Hin). now apply (Hi key). }
  { intros p f Hp Hu Hs. destruct (HI p Hp) as (key & Hin). now apply (Hr key). }
  destruct (inv_loop t first main m0 Hm (map snd (sort_entries L)) st) as [I _]; [|exact Hst|].
  { intros p Hp. destruct (HI p Hp) as (key & Hin). destruct HL as [_ HL]. now apply (HL key). }
  destruct (convert_ok (l_model st) (l_ignore st)) as (m' & Hc).
  { eapply alike_ok; [apply alike_sym, I|exact Hm]. }
  { intros n Hn. apply I in Hn as (p & v & Hp & Hal & Hg & (k & w & Hk & Hkn)). destruct (HI p Hp) as (key & Hin).
    assert (k = KParam) as -> by (specialize (Ha key p n v k w Hin Hal Hg Hk); destruct k; congruence).
    eapply alike_In; [apply alike_sym, I|exact Hk]. }
  unfold load_model. fold (loaded_epoch start epoch main). fold (first_epoch t start epoch main). fold first.
  assert (match main with
    | Some f => match loaded_epoch start epoch main with
                | Some e => (e, (match f_step f with Some s => s | None => 1 end - 1)%Z)
                | None => (or_one start, 0%Z) end
    | None => (or_one start, 0%Z) end = created start epoch main) as -> by (unfold created; now destruct main).
  destruct (created start epoch main) as [e2 s2]. cbn [fst snd] in m0. fold m0. rewrite map_rev, Hst. cbn [bind]. rewrite Hc. cbn [bind].
  assert (diff (l_missing st) noncrit = []) as ->; [|eexists; reflexivity].
  destruct (diff (l_missing st) noncrit) as [|n x] eqn:E; [reflexivity|]. exfalso.
  assert (In n (diff (l_missing st) noncrit)) as X by (rewrite E; now left). apply In_diff in X as [X Y]. apply I in X.
  pose proof (miss_not_loaded _ _ _ _ _ _ X) as Z. pose proof (miss_param _ _ _ _ _ _ X) as Hp. apply Z, load_in_spec.
  destruct (Hall n Hp Y) as [(f & v & Ef & Hin)|Hh]; [left|right; now apply has_preload_sort].
  unfold main_get. rewrite Ef. apply (In_dget (E:=EqB_string)) in Hin; [|apply main_params_ok; now apply Hmain]. now rewrite Hin.
Qed.

Lemma load_accept t start epoch main create noncrit L :
  let first := first_epoch t start epoch main in
  let m0 := create (fst (created start epoch main)) (snd (created start epoch main)) in
  preloads_ok L -> module_ok m0 -> 
  (forall key p, In (key, p) L -> p_init p <> InitOther) ->
  (forall key p f, In (key, p) L -> used t first p -> p_source p = SFile f -> readable p /\ relevant p m0) ->
  (forall key p n v k w, In (key, p) L -> p_init p = InitAlways -> gives p n v -> In (n, (k, w)) m0 -> k <> KBuffer) ->
  (forall n, is_param m0 n -> ~ In n noncrit -> (exists f v, main = Some f /\ In (n, v) (main_params f)) \/ has_preload t first L n) ->
  (forall f, main = Some f -> file_ok f) ->
  exists r, load_model t start epoch main create noncrit L = Ok r.
Proof.
  intros first m0 HL Hm Hi Hr. apply load_accept0; auto. intros key p f Hin Hu Hs. destruct (Hr key p f Hin Hu Hs) as [H1 H2].
  split; [|exact H2]. apply readable_ok; auto. destruct HL as [_ HL]. now apply (HL key).
Qed.

(* What a successful loop says about the entries *)
Lemma loop_entries t first main m0 (l : list (preload V)) st' : module_ok m0 -> (forall p, In p l -> preload_ok p) ->
  preload_loop (match t with TTrain => true | _ => false end) first (load_main m0 main) (rev l) = Ok st' ->
  forall p, In p l -> p_init p <> InitOther /\ (used t first p -> forall f, p_source p = SFile f ->
    is_ok (preload_state p f) = true /\ relevant p m0).
Proof.
  intros Hm. revert st'. induction l as [|p l IH]; intros st' Hok H q Hq; [destruct Hq|]. cbn [rev] in H.
  rewrite loop_app in H. apply bind_Ok in H as (st1 & H1 & H). cbn [preload_loop] in H. apply bind_Ok in H as (st2 & H2 & _).
  destruct Hq as [<-|Hq]; [|apply (IH st1); auto; intros q' Hq'; apply Hok; now right].
  destruct (inv_loop t first main m0 Hm l st1) as [I _]; [intros q Hq; apply Hok; now right|exact H1|].
  unfold preload_step in H2. apply bind_Ok in H2 as (w & Ew & H2). destruct (wanted_spec t first p w Ew) as [Hw Hno].
  split; [exact Hno|]. intros Hu f Hf. apply Hw in Hu. subst w. cbn [negb] in H2. rewrite Hf in H2.
  apply bind_Ok in H2 as (sd & Esd & H2). rewrite Esd. split; [reflexivity|].
  destruct (load_state_dict (l_model st1) sd) as [[m' mi] un] eqn:E. apply bind_Ok in H2 as (pk & Epk & H2).
  destruct (inter (map fst sd) pk) as [|x r] eqn:Ei; [discriminate|].
  assert (In x (inter (map fst sd) pk)) as X by (rewrite Ei; now left). apply In_inter in X as [X Y].
  apply (state_keys_spec p f sd x Hf (Hok p (or_introl eq_refl)) Esd) in X as (v & Hg). exists x, v. split; [exact Hg|].
  assert (m' = fst (fst (load_state_dict (l_model st1) sd))) as Em' by now rewrite E.
  assert (alike m' m0) as Hal by (rewrite Em'; eapply alike_trans; [apply lsd_alike|apply I]).
  destruct (String.eqb (p_prefix p) "") eqn:E0.
  - injection Epk as <-. apply state_keys_In in Y. apply String.eqb_eq in E0. rewrite E0. split; [|destruct x; reflexivity].
    eapply alike_param; [apply I|exact Y].
  - destruct (filter _ (state_keys m')) as [|y ys] eqn:Ef; [discriminate|]. injection Epk as <-. rewrite <- Ef in Y.
    apply filter_In in Y as [Y1 Y2]. split; [|exact Y2]. apply state_keys_In in Y1. eapply alike_param; [exact Hal|exact Y1].
Qed.

Lemma load_epoch t start epoch main create noncrit L r :
  load_model t start epoch main create noncrit L = Ok r ->
  (r_epoch r, r_step r) = match main, t with
    | Some _, TTrain => (fst (created start epoch main) + 1, snd (created start epoch main) + 1)%Z
    | _, _ => created start epoch main
    end.
Proof.
  unfold load_model. fold (loaded_epoch start epoch main).
  assert (match main with
    | Some f => match loaded_epoch start epoch main with
                | Some e => (e, (match f_step f with Some s => s | None => 1 end - 1)%Z)
                | None => (or_one start, 0%Z) end
    | None => (or_one start, 0%Z) end = created start epoch main) as -> by (unfold created; now destruct main).
  destruct (created start epoch main) as [e2 s2]. intros H. apply bind_Ok in H as (st & _ & H). apply bind_Ok in H as (m' & _ & H).
  destruct (diff (l_missing st) noncrit); [|discriminate]. injection H as <-. cbn [r_epoch r_step fst snd].
  destruct main; [|reflexivity]. destruct t; reflexivity.
Qed.

Lemma val_override first main main' m0 m0' L n v : StronglySorted klt L -> no_override L ->
  (exists key p w, In (key, p) L /\ p_init p = InitAlways /\ gives p n w) ->
  val TTrain first main m0 (map snd L) n v -> val TTrain false main' m0' (map snd L) n v.
Proof.
  induction L as [|(k1, p1) L IH]; intros Hs Hno (key & p & w & Hin & Ha & Hg); [destruct Hin|].
  inversion Hs as [|? ? Hs' Hf]; subst. cbn [map snd val]. intros [[Hu Hv]|[Hn Hv]].
  - left. split; [|exact Hv]. unfold used in *. destruct (p_init p1) eqn:E1; [exact Hu| |exact I|exact Hu].
    destruct Hin as [[= -> ->]|Hin]; [congruence|]. exfalso.
    assert (String.leb key k1 = true) as X.
    { apply (Hno k1 p1 key p n v w); auto; [now left|now right]. }
    rewrite Forall_forall in Hf. specialize (Hf _ Hin). eapply leb_slt_false; [exact Hf|exact X].
  - right. assert (used TTrain false p1 -> used TTrain first p1) as Hu'.
    { unfold used. destruct (p_init p1); auto. discriminate. }
    split; [intros [Hu X]; apply Hn; auto|]. apply IH; auto.
    + intros a q b q' x y z Hq Hq'. apply Hno; now right.
    + destruct Hin as [[= -> ->]|Hin]; [|now exists key, p, w]. exfalso. apply Hn. split; [unfold used; now rewrite Ha|now exists w].
Qed.

Lemma load_resume start epoch main create noncrit L r m' start' e s :
  preloads_ok L -> no_override L -> (forall e1 s1, module_ok (create e1 s1)) ->
  (forall e1 s1 e2 s2, trained (create e1 s1) (create e2 s2)) ->
  load_model TTrain start epoch main create noncrit L = Ok r -> trained (r_model r) m' -> (1 <= e)%Z ->
  exists f r', save_model m' (r_ignore r) e s = Ok f /\
    load_model TTrain start' (Some e) (Some f) create noncrit L = Ok r' /\ r_epoch r' = (e + 1)%Z /\ r_step r' = s /\
    forall n k v, In (n, (k, v)) (r_model r') <-> In (n, (k, v)) m'.
Proof.
  intros HL Hno Hmod Hcr H [Hal Htr] He.
  set (first := first_epoch TTrain start epoch main) in *. set (m0 := create (fst (created start epoch main)) (snd (created start epoch main))).
  assert (module_ok m0) as Hm by apply Hmod.
  destruct (load_inv TTrain start epoch main create noncrit L r HL Hm H) as (st & Hst & Inv1 & Hs & Hc & _ & Hig).
  fold first m0 in Hst, Inv1. fold first in Hs.
  assert (module_ok (l_model st)) as Hmst by (eapply alike_ok; [apply alike_sym, Inv1|exact Hm]).
  destruct (convert_spec _ _ _ Hmst Hc) as [Hc1 Hc2].
  assert (module_ok (r_model r)) as Hmr by (unfold module_ok; rewrite (convert_nodup _ _ _ Hc); exact Hmst).
  assert (module_ok m') as Hm' by (eapply alike_ok; [exact Hal|exact Hmr]).
  assert (forall n, In n (l_ignore st) <-> ign m0 (map snd (sort_entries L)) n) as Hign by apply Inv1.
  assert (forall p, In p (map snd (sort_entries L)) -> exists key, In (key, p) L) as HI.
  { intros p Hp. apply in_map_iff in Hp as ((key, p') & <- & Hx). exists key. now apply sort_In. }
  assert (forall key p, In (key, p) L -> In p (map snd (sort_entries L))) as HI'.
  { intros key p Hin. change p with (snd (key, p)). apply in_map. now apply sort_In. }
  assert (forall p, In p (map snd (sort_entries L)) -> preload_ok p) as Hpok.
  { intros p Hp. destruct (HI p Hp) as (key & Hin). destruct HL as [_ HL]. now apply (HL key). }
  (* kinds of m' *)
  assert (forall n, In n (l_ignore st) -> exists v, In (n, (KNonPersistent, v)) m') as Hk1.
  { intros n Hn. destruct (Hc1 n Hn) as (v & Hv). exists v. apply Htr. apply Hc2. left. split; [exact Hn|]. split; [reflexivity|]. now exists KParam. }
  assert (save_model m' (r_ignore r) e s = Ok {| f_sub := [("model"%string, state_dict m')]; f_flat := []; f_epoch := Some e; f_step := Some s |}) as Hsave.
  { unfold save_model. destruct (inter (state_keys m') (r_ignore r)) as [|n x] eqn:E; [reflexivity|]. exfalso.
    assert (In n (inter (state_keys m') (r_ignore r))) as X by (rewrite E; now left). apply In_inter in X as [X Y].
    rewrite Hig in Y. destruct (Hk1 n Y) as (v & Hv). apply state_keys_In in X as (k & w & X & Hk).
    destruct (in_ok _ _ _ _ _ _ Hm' X Hv). congruence. }
  set (f := {| f_sub := [("model"%string, state_dict m')]; f_flat := []; f_epoch := Some e; f_step := Some s |}) in *.
  assert (file_ok f) as Hf.
  { split; [repeat constructor; intros []|]. split; [constructor|]. intros k d [[= <- <-]|[]]. now apply state_dict_nodup. }
  assert (main_params f = state_dict m') as Hmp by reflexivity.
  assert (created start' (Some e) (Some f) = (e, (s - 1)%Z)) as Hcre by reflexivity.
  set (m2 := create e (s - 1)%Z). assert (trained m0 m2) as [Hal2 Htr2] by apply Hcr. assert (trained m2 m0) as [_ Htr2'] by apply Hcr.
  assert (first_epoch TTrain start' (Some e) (Some f) = false) as Hfi.
  { unfold first_epoch. cbn [loaded_epoch zero_epoch]. destruct e; try lia; reflexivity. }
  assert (forall p, used TTrain false p -> p_init p = InitAlways) as Hus.
  { intros p. unfold used. destruct (p_init p); congruence || tauto. }
  assert (forall p, p_init p = InitAlways -> forall b, used TTrain b p) as Hus' by (intros p E b; unfold used; now rewrite E).
  (* which parameters are not in the file *)
  assert (forall n, is_param m2 n -> In n (l_ignore st) \/ is_param m' n) as Hcov.
  { intros n (k & v & Hin & Hk). destruct (mem n (l_ignore st)) eqn:E; [left; now apply mem_In|right]. apply mem_nIn in E.
    destruct (alike_In _ _ _ _ _ (alike_sym _ _ Hal2) Hin) as (v1 & H1).
    destruct (alike_In _ _ _ _ _ (alike_sym _ _ (i_alike _ _ _ _ _ _ Inv1)) H1) as (v2 & H2).
    assert (In (n, (k, v2)) (r_model r)) as H3 by (apply Hc2; now right).
    destruct (alike_In _ _ _ _ _ Hal H3) as (v3 & H4). now exists k, v3. }
  assert (forall n, In n (l_ignore st) -> has_preload TTrain false L n) as Hhas.
  { intros n Hn. apply Hign in Hn as (p & v & Hp & Ha & Hg & _). destruct (HI p Hp) as (key & Hin). exists key, p, v. auto. }
  destruct (load_accept0 TTrain start' (Some e) (Some f) create noncrit L) as (r' & Hr').
  { exact HL. } { apply Hmod. }
  { intros key p Hin. now apply (loop_entries TTrain first main m0 _ _ Hm Hpok Hst p (HI' key p Hin)). }
  { rewrite Hfi, Hcre. cbn [fst snd]. fold m2. intros key p f0 Hin Hu Hsrc. apply Hus in Hu.
    destruct (loop_entries TTrain first main m0 _ _ Hm Hpok Hst p (HI' key p Hin)) as [_ X]. destruct (X (Hus' p Hu first) f0 Hsrc) as [X1 X2].
    split; [exact X1|]. destruct X2 as (n & v & Y1 & Y2 & Y3). exists n, v. split; [exact Y1|]. split; [|exact Y3]. eapply alike_param; eauto. }
  { rewrite Hcre. cbn [fst snd]. fold m2. intros key p n v k w Hin Ha Hg Hw ->.
    assert (is_param m0 n) as Hp0 by (eapply alike_param; [apply alike_sym, Hal2|]; exists KBuffer, w; split; [exact Hw|discriminate]).
    assert (In n (l_ignore st)) as Hn by (apply Hign; exists p, v; split; [now apply (HI' key)|auto]).
    destruct (Hc1 n Hn) as (x & Hx). destruct (alike_In _ _ _ _ _ (i_alike _ _ _ _ _ _ Inv1) Hx) as (y & Hy).
    destruct (alike_In _ _ _ _ _ Hal2 Hy) as (z & Hz). destruct (in_ok _ _ _ _ _ _ (Hmod _ _) Hw Hz). discriminate. }
  { rewrite Hfi, Hcre. cbn [fst snd]. fold m2. intros n Hp _. destruct (Hcov n Hp) as [X|X]; [right; now apply Hhas|left].
    apply state_keys_In in X. unfold state_keys in X. apply in_map_iff in X as ((n', v) & <- & X). exists f, v. split; [reflexivity|]. now rewrite Hmp. }
  { intros f0 [= <-]. exact Hf. }
  exists f, r'. split; [exact Hsave|]. split; [exact Hr'|].
  pose proof (load_epoch _ _ _ _ _ _ _ _ Hr') as Hep. rewrite Hcre in Hep. cbn [fst snd] in Hep. apply pair_equal_spec in Hep as [-> ->].
  split; [reflexivity|]. split; [lia|].
  destruct (load_inv TTrain start' (Some e) (Some f) create noncrit L r' HL (Hmod _ _) Hr') as (st2 & Hst2 & Inv2 & _ & Hc' & _).
  rewrite Hfi, Hcre in Inv2. cbn [fst snd] in Inv2. fold m2 in Inv2.
  assert (module_ok (l_model st2)) as Hmst2 by (eapply alike_ok; [apply alike_sym, Inv2|apply Hmod]).
  destruct (convert_spec _ _ _ Hmst2 Hc') as [Hc1' Hc2'].
  assert (forall n, In n (l_ignore st2) <-> In n (l_ignore st)) as Hii.
  { intros n. rewrite Hign. rewrite (i_ignore _ _ _ _ _ _ Inv2). unfold ign.
    split; intros (p & v & X1 & X2 & X3 & X4); exists p, v; (split; [exact X1|split; [exact X2|split; [exact X3|]]]); eapply alike_param; try exact X4; [now apply alike_sym|exact Hal2]. }
  assert (forall n v, In n (l_ignore st) -> (value_of (r_model r') n v <-> value_of m' n v)) as Hv1.
  { intros n v Hn. destruct (Hk1 n Hn) as (w & Hw).
    assert (value_of (r_model r) n w) as Hrw.
    { destruct (alike_In _ _ _ _ _ (alike_sym _ _ Hal) Hw) as (w' & Hw'). apply Htr in Hw' as Hw''.
      destruct (in_ok _ _ _ _ _ _ Hm' Hw Hw''). subst. now exists KNonPersistent. }
    apply (convert_value _ _ _ n w Hmst Hc) in Hrw. apply Hign in Hn as Hn'. destruct Hn' as (p & pv & Hp & Ha & Hg & Hp0).
    apply (i_val _ _ _ _ _ _ Inv1 n w Hp0) in Hrw. destruct (HI p Hp) as (key & Hin).
    apply (val_override first main (Some f) m0 m2) in Hrw; [|apply sort_sorted, HL| |].
    2: { intros a q b q' x y z Hq Hq'. apply Hno; now apply sort_In. }
    2: { exists key, p, pv. split; [now apply sort_In|auto]. }
    assert (is_param m2 n) as Hp2 by (eapply alike_param; [exact Hal2|exact Hp0]).
    apply (i_val _ _ _ _ _ _ Inv2 n w Hp2) in Hrw. apply (convert_value _ _ _ n w Hmst2 Hc') in Hrw.
    assert (module_ok (r_model r')) as Hmr' by (unfold module_ok; rewrite (convert_nodup _ _ _ Hc'); exact Hmst2).
    split.
    - intros (k & X). destruct Hrw as (k' & Y). destruct (in_ok _ _ _ _ _ _ Hmr' X Y). subst. now exists KNonPersistent.
    - intros (k & X). destruct (in_ok _ _ _ _ _ _ Hm' X Hw). subst. exact Hrw. }
  intros n k v. rewrite Hc2', Hii. split.
  - intros [(Hn & -> & Hex)|[Hn Hin]].
    + destruct (Hk1 n Hn) as (w & Hw).
      assert (value_of m' n v) as (k & X).
      { apply Hv1; [exact Hn|]. exists KNonPersistent. apply Hc2'. left. rewrite Hii. auto. }
      destruct (in_ok _ _ _ _ _ _ Hm' X Hw). now subst.
    + destruct (alike_In _ _ _ _ _ (i_alike _ _ _ _ _ _ Inv2) Hin) as (v2 & H2). destruct k.
      3: { apply Htr. apply Hc2. right. split; [exact Hn|]. apply (i_non _ _ _ _ _ _ Inv1). apply (i_non _ _ _ _ _ _ Inv2) in Hin. now apply Htr2'. }
      all: assert (is_param m2 n) as Hp2 by (eexists; exists v2; split; [exact H2|discriminate]).
      all: assert (val TTrain false (Some f) m2 (map snd (sort_entries L)) n v) as Hv by (apply (i_val _ _ _ _ _ _ Inv2 n v Hp2); eexists; exact Hin).
      all: destruct (Hcov n Hp2) as [X|(k' & w & X & Hk')]; [tauto|].
      all: assert (main_get (Some f) n = Some w) as Hg by (cbn [main_get]; rewrite Hmp; apply (In_dget (E:=EqB_string)); [now apply state_dict_nodup|apply state_dict_In; now exists k']).
      all: assert (val TTrain false (Some f) m2 (map snd (sort_entries L)) n w) as Hvw by
        (apply val_not_preloaded; [|now rewrite Hg]; intros Y; apply Hn; apply (proj1 (has_preload_sort _ _ L n)) in Y as (key & p & z & Y1 & Y2 & Y3); apply Hign;
         exists p, z; split; [now apply (HI' key)|]; split; [now apply Hus|]; split; [exact Y3|]; eapply alike_param; [apply alike_sym, Hal2|exact Hp2]).
      all: assert (value_of (l_model st2) n w) as (k2 & Y) by (now apply (i_val _ _ _ _ _ _ Inv2 n w Hp2)).
      all: destruct (in_ok _ _ _ _ _ _ Hmst2 Hin Y) as [_ <-].
      all: destruct (alike_In _ _ _ _ _ (alike_sym _ _ Hal) X) as (x1 & X1).
      all: apply Hc2 in X1 as [(Z & _)|[_ X1]]; [tauto|].
      all: destruct (alike_In _ _ _ _ _ (i_alike _ _ _ _ _ _ Inv1) X1) as (x2 & X2).
      all: destruct (alike_In _ _ _ _ _ Hal2 X2) as (x3 & X3).
      all: destruct (in_ok _ _ _ _ _ _ (Hmod _ _) H2 X3) as [<- _]; exact X.
  - intros Hin. destruct (mem n (l_ignore st)) eqn:E.
    + apply mem_In in E. left. split; [exact E|]. destruct (Hk1 n E) as (w & Hw). destruct (in_ok _ _ _ _ _ _ Hm' Hin Hw) as [-> _].
      split; [reflexivity|]. assert (value_of (r_model r') n v) as X by (apply Hv1; [exact E|now exists KNonPersistent]).
      apply (convert_value _ _ _ n v Hmst2 Hc') in X. exact X.
    + apply mem_nIn in E. right. split; [exact E|].
      destruct (alike_In _ _ _ _ _ (alike_sym _ _ Hal) Hin) as (x1 & X1).
      apply Hc2 in X1 as X1'. destruct X1' as [(Z & _)|[_ X1']]; [tauto|].
      destruct (alike_In _ _ _ _ _ (i_alike _ _ _ _ _ _ Inv1) X1') as (x2 & X2).
      destruct (alike_In _ _ _ _ _ Hal2 X2) as (x3 & X3).
      destruct (alike_In _ _ _ _ _ (alike_sym _ _ (i_alike _ _ _ _ _ _ Inv2)) X3) as (x4 & X4).
      assert (k = KNonPersistent \/ k <> KNonPersistent) as [->|Hk] by (destruct k; auto; right; discriminate).
      * pose proof X1 as X1o. apply Htr in X1. destruct (in_ok _ _ _ _ _ _ Hm' Hin X1) as [_ <-]. apply (i_non _ _ _ _ _ _ Inv2). apply Htr2. apply (i_non _ _ _ _ _ _ Inv1). apply Hc2 in X1o as [(Z & _)|[_ X1o]]; [tauto|exact X1o].
      * assert (is_param m2 n) as Hp2 by (now exists k, x3).
        assert (main_get (Some f) n = Some v) as Hg by (cbn [main_get]; rewrite Hmp; apply (In_dget (E:=EqB_string)); [now apply state_dict_nodup|apply state_dict_In; now exists k]).
        assert (val TTrain false (Some f) m2 (map snd (sort_entries L)) n v) as Hvw.
        { apply val_not_preloaded; [|now rewrite Hg]. intros Y. apply E. apply (proj1 (has_preload_sort _ _ L n)) in Y as (key & p & z & Y1 & Y2 & Y3). apply Hign.
          exists p, z. split; [now apply (HI' key)|]. split; [now apply Hus|]. split; [exact Y3|]. eapply alike_param; [apply alike_sym, Hal2|exact Hp2]. }
        apply (i_val _ _ _ _ _ _ Inv2 n v Hp2) in Hvw as (k2 & Y). destruct (in_ok _ _ _ _ _ _ Hmst2 X4 Y) as [-> ->]. exact Y.
Qed.
End P.
