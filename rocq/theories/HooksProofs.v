(** Proofs about hooks. *)
From Verif Require Import Base ListLemmas PyDict HooksModel HooksSpec.
Local Open Scope nat_scope.

Fixpoint chain (m bound : nat) (c : callable) {struct c} : Prop :=
  match c with
  | Func => m = 0
  | Wrapper w oc => w < bound /\ match m with 0 => False | S m' => chain m' w oc end
  end.
Lemma chain_mono m : forall b b' c, b <= b' -> chain m b c -> chain m b' c.
Proof. intros b b' [|w oc]; cbn; [easy|]. intros Hb [H1 H2]. split; [lia|easy]. Qed.

Section P.
  Context {A V : Type}.
  Notation hook := (nat -> A -> V -> V).
  Implicit Types (l : list (nat * (nat * hook))).

  Definition proj (o : nat) l : list (nat * hook) := map (fun x => (fst x, snd (snd x))) (filter (fun x => fst (snd x) =? o) l).
  Definition entry_of (hs : list (nat * hook)) : option (list (nat * hook)) := match hs with [] => None | _ => Some hs end.

  Record inv (is_call : bool) (s : state A V) (hds : list (nat * nat)) (n : nat) l : Prop := {
    i_n : next_id s = n;
    i_len : length hds = n;
    i_hd : forall k hd, nth_error hds k = Some hd -> snd hd = k;
    i_own : forall x, In x l -> nth_error hds (fst x) = Some (fst (snd x), fst x);
    i_nd : NoDup (map fst l);
    i_ok : dict_ok (inst s);
    i_get : forall o, dget (inst s) o = entry_of (proj o l);
    i_cls : if is_call then chain (length (inst s)) (next_w s) (cls s) else cls s = Func }.

  Lemma proj_app o l1 l2 : proj o (l1 ++ l2) = proj o l1 ++ proj o l2.
  Proof. unfold proj. now rewrite filter_app, map_app. Qed.

  Lemma entry_nil o (s : state A V) l : dget (inst s) o = entry_of (proj o l) -> dget (inst s) o = None -> proj o l = [].
  Proof. intros H1 H2. rewrite H2 in H1. now destruct (proj o l). Qed.
  Lemma entry_some o (s : state A V) l hs : dget (inst s) o = entry_of (proj o l) -> dget (inst s) o = Some hs -> proj o l = hs /\ hs <> [].
  Proof. intros H1 H2. rewrite H2 in H1. destruct (proj o l); cbn in H1; [easy|]. injection H1 as ->. split; easy. Qed.

  Lemma In_proj o l k h : In (k, h) (proj o l) -> In (k, (o, h)) l.
  Proof.
    unfold proj. rewrite in_map_iff. intros ((k', (o', h')) & [= <- <-] & H). apply filter_In in H. cbn in H. destruct H as [H E].
    apply Nat.eqb_eq in E. now subst.
  Qed.
  Lemma proj_fresh o l k : (forall x, In x l -> fst x <> k) -> ~ In k (map fst (proj o l)).
  Proof. intros H Hin. apply in_map_iff in Hin as ((k', h) & <- & Hin). apply In_proj in Hin. now apply (H _ Hin). Qed.

  Lemma inv_register ic s hds n l o h p : inv ic s hds n l ->
    let (s', hd) := register ic s o h p in
    inv ic s' (hds ++ [hd]) (S n) (if p then (n, (o, h)) :: l else l ++ [(n, (o, h))]).
  Proof.
    intros I. destruct I as [I1 I2 I3 I4 I5 I6 I7 I8]. unfold register, get.
    assert (Hlt : forall x, In x l -> fst x < n).
    { intros x Hx. rewrite <- I2. apply nth_error_Some. rewrite (I4 _ Hx). discriminate. }
    set (l' := if p then (n, (o, h)) :: l else l ++ [(n, (o, h))]).
    assert (Hin : forall x, In x l' <-> x = (n, (o, h)) \/ In x l).
    { intros x. unfold l'. destruct p; [cbn|rewrite in_app_iff; cbn]; intuition congruence. }
    assert (Hp : forall o', proj o' l' = if o =? o' then (if p then (n, h) :: proj o l else proj o l ++ [(n, h)]) else proj o' l).
    { intros o'. unfold l'. destruct p.
      - unfold proj at 1. cbn. destruct (Nat.eqb_spec o o') as [<-|]; reflexivity.
      - rewrite proj_app. unfold proj at 2. cbn. destruct (Nat.eqb_spec o o') as [<-|]; cbn; [reflexivity|]. apply app_nil_r. }
    assert (Hnd : NoDup (map fst l')).
    { assert (NoDup (n :: map fst l)) as Hc.
      { constructor; [|exact I5]. intros Hi. apply in_map_iff in Hi as (x & E & Hx). specialize (Hlt _ Hx). lia. }
      unfold l'. destruct p; [exact Hc|]. rewrite map_app. cbn. eapply Permutation_NoDup; [apply Permutation_cons_append|exact Hc]. }
    assert (Hown : forall hds', hds' = hds ++ [(o, n)] -> forall x, In x l' -> nth_error hds' (fst x) = Some (fst (snd x), fst x)).
    { intros hds' -> x Hx. apply Hin in Hx as [->|Hx]; cbn.
      - rewrite nth_error_app2 by lia. now rewrite I2, Nat.sub_diag.
      - rewrite nth_error_app1; [now apply I4|]. rewrite I2. now apply Hlt. }
    assert (Hhd : forall k hd, nth_error (hds ++ [(o, n)]) k = Some hd -> snd hd = k).
    { intros k hd Hk. destruct (lt_dec k n) as [H|H].
      - rewrite nth_error_app1 in Hk by lia. now apply I3.
      - rewrite nth_error_app2 in Hk by lia. rewrite I2 in Hk. destruct (k - n) as [|j] eqn:E; [|destruct j; discriminate].
        injection Hk as <-. cbn. lia. }
    destruct (dget (inst s) o) as [hs|] eqn:Hg.
    - destruct (entry_some _ _ _ _ (I7 o) Hg) as [Hpo Hne].
      rewrite I1. split; cbn; try easy.
      + rewrite app_length. cbn. lia.
      + now apply Hown.
      + now apply dict_ok_dset.
      + intros o'. rewrite dget_dset, Hp. cbn [keqb]. change (keqb o o') with (o =? o'). destruct (o =? o'); [|apply I7].
        rewrite Hpo. destruct p; [reflexivity|]. now destruct hs.
      + destruct ic; [|exact I8]. rewrite dset_length. unfold dhas. now rewrite Hg.
    - pose proof (entry_nil _ _ _ (I7 o) Hg) as Hpo.
      unfold setup. cbn. rewrite I1. split; cbn; try easy.
      + rewrite app_length. cbn. lia.
      + now apply Hown.
      + now do 2 apply dict_ok_dset.
      + intros o'. rewrite !dget_dset, Hp. change (keqb o o') with (o =? o'). destruct (o =? o'); [|apply I7].
        rewrite Hpo. now destruct p.
      + destruct ic; [|exact I8]. rewrite dset_length. unfold dhas. rewrite dget_dset_eq. rewrite dset_length. unfold dhas. rewrite Hg.
        split; [lia|exact I8].
  Qed.

  Lemma proj_filter o l k : (forall x, In x l -> fst x = k -> fst (snd x) <> o) ->
    proj o (filter (fun x => negb (fst x =? k)) l) = proj o l.
  Proof.
    unfold proj. intros H. f_equal. induction l as [|(i, (o', h)) l IH]; cbn; [easy|].
    assert (Hx := H (i, (o', h)) (or_introl eq_refl)). cbn in Hx.
    destruct (Nat.eqb_spec i k) as [->|Hne]; cbn.
    - destruct (Nat.eqb_spec o' o) as [->|]; [now specialize (Hx eq_refl)|]. apply IH. intros x Hi. apply H. now right.
    - rewrite IH; [easy|]. intros x Hi. apply H. now right.
  Qed.
  Lemma ddel_filter (hs : list (nat * hook)) k : NoDup (map fst hs) -> ddel hs k = filter (fun x => negb (fst x =? k)) hs.
  Proof.
    induction hs as [|(i, h) hs IH]; cbn; [easy|]. intros Hn. inversion Hn as [|? ? H1 H2]; subst.
    destruct (Nat.eqb_spec i k) as [->|Hne]; cbn.
    - symmetry. apply filter_all. intros (j, h') Hj. cbn. destruct (Nat.eqb_spec j k) as [->|]; [|easy].
      exfalso. apply H1. apply in_map_iff. now exists (k, h').
    - now rewrite IH.
  Qed.
  Lemma proj_filter_same o l k : proj o (filter (fun x => negb (fst x =? k)) l) = filter (fun x => negb (fst x =? k)) (proj o l).
  Proof.
    unfold proj. induction l as [|(i, (o', h)) l IH]; cbn; [easy|].
    destruct (Nat.eqb_spec i k) as [->|Hne]; cbn.
    - destruct (Nat.eqb_spec o' o) as [->|]; cbn; [rewrite Nat.eqb_refl|]; exact IH.
    - destruct (Nat.eqb_spec o' o) as [->|]; cbn; [|exact IH]. destruct (Nat.eqb_spec i k); [easy|]. cbn. now rewrite IH.
  Qed.
  Lemma proj_nodup o l : NoDup (map fst l) -> NoDup (map fst (proj o l)).
  Proof.
    unfold proj. rewrite map_map. cbn. induction l as [|x l IH]; cbn; [easy|]. intros Hn. inversion Hn as [|? ? H1 H2]; subst.
    destruct (fst (snd x) =? o); cbn; [|auto]. constructor; [|auto]. intros Hi. apply H1.
    apply in_map_iff in Hi as (y & E & Hy). apply filter_In in Hy as [Hy _]. apply in_map_iff. now exists y.
  Qed.
  Lemma filter_nodup l (f : nat * (nat * hook) -> bool) : NoDup (map fst l) -> NoDup (map fst (filter f l)).
  Proof.
    induction l as [|x l IH]; cbn; [easy|]. intros Hn. inversion Hn as [|? ? H1 H2]; subst.
    destruct (f x); cbn; [|auto]. constructor; [|auto]. intros Hi. apply H1.
    apply in_map_iff in Hi as (y & E & Hy). apply filter_In in Hy as [Hy _]. apply in_map_iff. now exists y.
  Qed.

  Lemma inv_remove ic s hds n l k hd : inv ic s hds n l -> nth_error hds k = Some hd ->
    exists s', remove ic s hd = Ok s' /\ inv ic s' hds n (filter (fun x => negb (fst x =? k)) l).
  Proof.
    intros I Hk. destruct I as [I1 I2 I3 I4 I5 I6 I7 I8]. destruct hd as (o, id). pose proof (I3 _ _ Hk) as E. cbn in E. subst id.
    set (l' := filter (fun x => negb (fst x =? k)) l).
    assert (Hother : forall o', o <> o' -> proj o' l' = proj o' l).
    { intros o' Hne. apply proj_filter. intros x Hx Ex Eo. apply I4 in Hx. rewrite Ex, Hk in Hx. congruence. }
    assert (Hin' : forall x, In x l' -> In x l) by (intros x Hx; now apply filter_In in Hx).
    assert (Hnd' : NoDup (map fst l')) by now apply filter_nodup.
    assert (Hsame : ~ In k (map fst (proj o l)) -> proj o l' = proj o l).
    { intros Hni. unfold l'. rewrite proj_filter_same. apply filter_all. intros (i, h) Hi. cbn.
      destruct (Nat.eqb_spec i k) as [->|]; [|easy]. exfalso. apply Hni. apply in_map_iff. now exists (k, h). }
    unfold remove. destruct (dget (inst s) o) as [hs|] eqn:Hg.
    2: { exists s. split; [reflexivity|]. pose proof (entry_nil _ _ _ (I7 o) Hg) as Hp.
      split; try easy; [intros x Hx; now apply I4, Hin'|]. intros o'. rewrite I7. destruct (Nat.eq_dec o o') as [<-|Hne]; [|now rewrite Hother].
      rewrite Hsame; [easy|]. now rewrite Hp. }
    destruct (entry_some _ _ _ _ (I7 o) Hg) as [Hp Hne].
    destruct (dhas hs k) eqn:Hh.
    2: { exists s. split; [reflexivity|]. split; try easy; [intros x Hx; now apply I4, Hin'|].
      intros o'. rewrite I7. destruct (Nat.eq_dec o o') as [<-|Hn]; [|now rewrite Hother].
      rewrite Hsame; [easy|]. rewrite Hp. intros Hi. apply dhas_keys in Hi. congruence. }
    assert (Hp' : proj o l' = ddel hs k).
    { unfold l'. rewrite proj_filter_same, Hp, ddel_filter; [easy|]. rewrite <- Hp. now apply proj_nodup. }
    destruct (ddel hs k) as [|x hs'] eqn:Hd.
    - unfold uninstall. cbn [cls inst next_id next_w].
      assert (Hdd : forall o', dget (ddel (dset (inst s) o []) o) o' = entry_of (proj o' l')).
      { intros o'. rewrite dget_ddel by now apply dict_ok_dset. rewrite dget_dset. change (keqb o o') with (o =? o').
        destruct (Nat.eqb_spec o o') as [<-|Hn]; [now rewrite Hp'|]. rewrite I7, Hother; easy. }
      assert (Hok : dict_ok (ddel (dset (inst s) o []) o)) by now apply dict_ok_ddel, dict_ok_dset.
      assert (Hlen : S (length (ddel (dset (inst s) o []) o)) = length (inst s)).
      { rewrite dkeys_ddel_len.
        - rewrite dset_length. unfold dhas. now rewrite Hg.
        - apply dget_keys. now rewrite dget_dset_eq. }
      destruct ic.
      + rewrite <- Hlen in I8. destruct (cls s) as [|w oc]; cbn in I8; [easy|]. destruct I8 as [Hw Hc].
        eexists. split; [reflexivity|]. split; cbn; try easy; [intros y Hy; now apply I4, Hin'|]. eapply chain_mono; [|exact Hc]. lia.
      + eexists. split; [reflexivity|]. split; cbn; try easy. intros y Hy; now apply I4, Hin'.
    - eexists. split; [reflexivity|]. split; cbn; try easy.
      + intros y Hy; now apply I4, Hin'.
      + now apply dict_ok_dset.
      + intros o'. rewrite dget_dset. change (keqb o o') with (o =? o').
        destruct (Nat.eqb_spec o o') as [<-|Hn]; [now rewrite Hp'|]. rewrite I7, Hother; easy.
      + destruct ic; [|exact I8]. rewrite dset_length. unfold dhas. now rewrite Hg.
  Qed.

  Lemma exec_inv ic ops : forall s hds n l, inv ic s hds n l ->
    exists s' hds' n', exec ic s hds ops = Ok s' /\ inv ic s' hds' n' (active_from n l ops).
  Proof.
    induction ops as [|[o h p|k] ops IH]; intros s hds n l I; cbn.
    - now exists s, hds, n.
    - pose proof (inv_register ic s hds n l o h p I) as I'. destruct (register ic s o h p) as (s', hd).
      destruct p; exact (IH _ _ _ _ I').
    - destruct (nth_error hds k) as [hd|] eqn:Hk.
      + destruct (inv_remove _ _ _ _ _ _ _ I Hk) as (s' & -> & I'). cbn. exact (IH _ _ _ _ I').
      + rewrite filter_all; [now apply IH|]. intros x Hx. pose proof (i_own _ _ _ _ _ I x Hx) as Ho.
        destruct (Nat.eqb_spec (fst x) k) as [E|]; [|easy]. rewrite E in Ho. congruence.
  Qed.
  Lemma inv_init ic : inv ic init [] 0 [].
  Proof.
    split; cbn; try easy.
    - intros k hd H. destruct k; discriminate.
    - constructor.
    - constructor.
    - now destruct ic.
  Qed.

  Lemma after_total ic ops : exists s, @after A V ic ops s.
  Proof. destruct (exec_inv ic ops _ _ _ _ (inv_init ic)) as (s & ? & ? & E & _). now exists s. Qed.
  Lemma after_inv ic ops s : @after A V ic ops s -> exists hds n, inv ic s hds n (active_from 0 [] ops).
  Proof.
    intros H. destruct (exec_inv ic ops _ _ _ _ (inv_init ic)) as (s' & hds & n & E & I). unfold after in H. rewrite E in H.
    injection H as <-. now exists hds, n.
  Qed.

  Lemma active_proj (ops : list (op A V)) o : active ops o = map snd (proj o (active_from 0 [] ops)).
  Proof. unfold active, proj. rewrite map_map. now apply map_ext. Qed.
  Lemma run_hooks_fold hs o (a : A) (r : V) : run_hooks hs o a r = fold_left (fun r (h : hook) => h o a r) (map snd hs) r.
  Proof. unfold run_hooks. revert r. induction hs as [|x hs IH]; cbn; intros r; [easy|]. apply IH. Qed.
  Lemma hooked_get ic ops s o : @after A V ic ops s -> hooked ops o <-> dget (inst s) o <> None.
  Proof.
    intros H. destruct (after_inv _ _ _ H) as (hds & n & I). rewrite (i_get _ _ _ _ _ I). unfold hooked. rewrite active_proj.
    destruct (proj o (active_from 0 [] ops)); cbn; split; congruence.
  Qed.
  Lemma get_expected ic ops s o orig (a : A) : @after A V ic ops s ->
    match dget (inst s) o with Some hs => run_hooks hs o a (orig o a) | None => orig o a end = expected orig ops o a.
  Proof.
    intros H. destruct (after_inv _ _ _ H) as (hds & n & I). rewrite (i_get _ _ _ _ _ I). unfold expected. rewrite active_proj.
    destruct (proj o (active_from 0 [] ops)) eqn:E; cbn [entry_of]; [easy|]. now rewrite run_hooks_fold.
  Qed.

  Lemma attr_ok orig ops s o a : @after A V false ops s -> gives (fun fuel => call_attr orig fuel s o a) (Ok (expected orig ops o a)).
  Proof.
    intros H. exists 1. intros [|f] Hf; [lia|]. rewrite <- (get_expected _ _ _ o orig a H).
    destruct (after_inv _ _ _ H) as (hds & n & I). pose proof (i_cls _ _ _ _ _ I) as Hc. cbn in Hc.
    unfold call_attr. rewrite Hc. now destruct (dget (inst s) o).
  Qed.

  (** at most one hooked object: at most one wrapper *)
  Lemma one_len ic ops s : @after A V ic ops s -> one_hooked ops -> length (inst s) <= 1.
  Proof.
    intros H H1. destruct (after_inv _ _ _ H) as (hds & n & I). pose proof (i_ok _ _ _ _ _ I) as Hok.
    destruct (inst s) as [|(o1, h1) [|(o2, h2) d]] eqn:E; cbn; try lia. exfalso.
    assert (o1 = o2) as ->.
    { apply H1; apply (hooked_get _ _ _ _ H); rewrite E; apply dget_keys; cbn; auto. }
    unfold dict_ok in Hok. cbn in Hok. inversion Hok as [|? ? Hn _]; subst. apply Hn. now left.
  Qed.
  Lemma two_len ic ops s : @after A V ic ops s -> two_hooked ops -> 2 <= length (inst s).
  Proof.
    intros H (o1 & o2 & H1 & H2 & Hne). apply (hooked_get _ _ _ _ H) in H1, H2. apply dget_keys in H1, H2.
    destruct (inst s) as [|(a1, h1) [|(a2, h2) d]]; cbn in *; intuition (try lia; congruence).
  Qed.
  Lemma call_ok orig ops s o a : @after A V true ops s -> one_hooked ops ->
    gives (fun fuel => call_op orig fuel s o a) (Ok (expected orig ops o a)) /\
    gives (fun fuel => call_attr orig fuel s o a) (Ok (expected orig ops o a)).
  Proof.
    intros H H1. pose proof (one_len _ _ _ H H1) as Hl. rewrite <- (get_expected _ _ _ o orig a H).
    destruct (after_inv _ _ _ H) as (hds & n & I). pose proof (i_cls _ _ _ _ _ I) as Hc. cbn in Hc.
    split; exists 2; intros [|[|f]] Hf; try lia; unfold call_op, call_attr;
      (destruct (inst s) as [|e [|e' d]] eqn:E; [| |cbn in Hl; lia]; cbn [length] in Hc;
       [destruct (cls s) as [|w oc] eqn:Ec; [reflexivity|destruct Hc; easy]|];
       destruct (cls s) as [|w oc] eqn:Ec; [discriminate|]; destruct Hc as [Hw Hc]; destruct oc; [|destruct Hc; easy]; cbn [run];
       rewrite ?E, ?Ec; destruct (dget [e] o); cbn; rewrite ?Nat.eqb_refl; reflexivity).
  Qed.

  Lemma endless_run orig (s : state A V) w w2 oc2 o a hs : cls s = Wrapper w (Wrapper w2 oc2) -> dget (inst s) o = Some hs ->
    forall fuel w' oc', run orig fuel s (Wrapper w' oc') o a = Err OutOfFuel.
  Proof.
    intros Hc Hg. induction fuel as [|f IH]; intros w' oc'; cbn [run]; [easy|]. rewrite Hg, Hc. now rewrite IH.
  Qed.
  Lemma call_two orig ops s o a : @after A V true ops s -> two_hooked ops ->
    (hooked ops o -> endless (fun fuel => call_op orig fuel s o a) /\ endless (fun fuel => call_attr orig fuel s o a)) /\
    (~ hooked ops o -> gives (fun fuel => call_op orig fuel s o a) (Err AssertionError) /\
                       gives (fun fuel => call_attr orig fuel s o a) (Err AssertionError)).
  Proof.
    intros H H2. pose proof (two_len _ _ _ H H2) as Hl.
    destruct (after_inv _ _ _ H) as (hds & n & I). pose proof (i_cls _ _ _ _ _ I) as Hc. cbn in Hc.
    destruct (length (inst s)) as [|[|m]]; [lia|lia|].
    destruct (cls s) as [|w [|w2 oc2]] eqn:Ec; [easy|destruct Hc; easy|]. destruct Hc as [Hw [Hw2 Hc]].
    rewrite (hooked_get _ _ _ o H). split.
    - intros Hh. destruct (dget (inst s) o) as [hs|] eqn:Hg; [clear Hh|easy]. split; intros fuel.
      + unfold call_op. rewrite Ec. eapply endless_run; eauto.
      + unfold call_attr. rewrite Hg, Ec. erewrite endless_run; eauto.
    - intros Hh. destruct (dget (inst s) o) as [hs|] eqn:Hg; [destruct Hh; discriminate|].
      assert (w =? w2 = false) as Hn by (apply Nat.eqb_neq; lia).
      split; exists 2; intros [|[|f]] Hf; try lia; unfold call_op, call_attr; rewrite ?Hg, Ec; cbn [run]; rewrite Hg, Ec, Nat.eqb_refl, Hn; reflexivity.
  Qed.

  Lemma none_clean ic ops s : @after A V ic ops s -> (forall o, ~ hooked ops o) -> cls s = Func /\ inst s = [].
  Proof.
    intros H Hn. destruct (after_inv _ _ _ H) as (hds & n & I).
    assert (inst s = []) as E.
    { destruct (inst s) as [|(o, hs) d] eqn:E; [easy|]. exfalso. apply (Hn o). apply (hooked_get _ _ _ _ H). rewrite E. apply dget_keys. now left. }
    split; [|exact E]. pose proof (i_cls _ _ _ _ _ I) as Hc. rewrite E in Hc. destruct ic; [|exact Hc].
    destruct (cls s); [easy|]. now destruct Hc.
  Qed.
End P.
