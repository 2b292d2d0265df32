From Coq Require Import Ascii String Permutation.
From Verif Require Import Base ListLemmas PyDict ReprModel ReprSpec ReprProofs LrSaveModel LrSaveSpec.
Local Open Scope string_scope. Local Open Scope nat_scope. Local Open Scope list_scope.
Local Notation length := List.length.
Local Infix "+++" := String.append (right associativity, at level 60).

Lemma strip_app p s : strip p (p +++ s) = Some s.
Proof. induction p as [|c p IH]; cbn; [reflexivity|now rewrite Ascii.eqb_refl]. Qed.
Lemma strip_Some p s r : strip p s = Some r -> s = p +++ r.
Proof.
  revert s. induction p as [|c p IH]; intros [|d s]; cbn; try congruence. destruct (Ascii.eqb c d) eqn:E; [|discriminate]. apply Ascii.eqb_eq in E. subst d. intros H. now rewrite (IH _ H).
Qed.

Lemma joined_get d d' k : dict_ok d' -> dget (dict_joined d d') k = match dget d' k with Some v => Some v | None => dget d k end.
Proof.
  unfold dict_joined. revert d. induction d' as [|[k' v'] d' IH]; intros d Hok; cbn [fold_left fst snd dget]; [reflexivity|].
  apply NoDup_cons_iff in Hok. destruct Hok as [Hni Hok]. rewrite IH by exact Hok. rewrite dget_dset. destruct (keqb k' k) eqn:E; [|reflexivity].
  apply keqb_eq in E. subst k'. apply dget_None in Hni. cbn [fst] in Hni. now rewrite Hni.
Qed.
Lemma joined_ok d d' : dict_ok d -> dict_ok (dict_joined d d').
Proof. unfold dict_joined. revert d. induction d' as [|kv d' IH]; intros d Hok; cbn [fold_left]; [exact Hok|]. apply IH. now apply dict_ok_dset. Qed.
Lemma joined_In e k v : good_epoch e ->
  In (k, v) (dict_joined (e_error e) (map (fun kv => ((meta_prefix +++ fst kv)%string, snd kv)) (e_meta e))) <->
  In (k, v) (e_error e) \/ exists k', k = meta_prefix +++ k' /\ In (k', v) (e_meta e).
Proof.
  intros (_&_&(He&_)&(Hm&_)&Hp). set (m := map _ (e_meta e)).
  assert (Hmok : dict_ok m).
  { unfold dict_ok, dkeys in *. subst m. rewrite map_map. cbn [fst]. rewrite <- (map_map fst (fun s => meta_prefix +++ s)). apply NoDup_map_inj; [|exact Hm]. intros x y _ _ E. apply (f_equal (strip meta_prefix)) in E. rewrite !strip_app in E. congruence. }
  assert (Hiff : In (k, v) (dict_joined (e_error e) m) <-> dget (dict_joined (e_error e) m) k = Some v) by (split; [apply In_dget; now apply joined_ok|apply dget_In]).
  rewrite Hiff, joined_get by exact Hmok. split.
  - destruct (dget m k) as [w|] eqn:E; intros H.
    + injection H as ->. apply dget_In in E. subst m. apply in_map_iff in E. destruct E as ((k'&v')&E&Hin). injection E as <- <-. right. exists k'. split; [reflexivity|exact Hin].
    + left. now apply dget_In.
  - intros [H|(k'&->&H)].
    + destruct (dget m k) as [w|] eqn:E; [|now apply In_dget]. exfalso. apply dget_In in E. apply in_map_iff in E. destruct E as ((k'&v')&E&_). injection E as <- <-.
      specialize (Hp _ (in_map fst _ _ H)). cbn in Hp. discriminate.
    + assert (E : dget m (meta_prefix +++ k') = Some v); [|now rewrite E]. apply In_dget; [exact Hmok|]. apply in_map_iff. exists (k', v). auto.
Qed.

Lemma mapM_str_key l : mapM str_key (map (fun kv : string * pyv => (KStr (fst kv), snd kv)) l) = Ok l.
Proof. induction l as [|[k v] l IH]; cbn; [reflexivity|]. rewrite IH. reflexivity. Qed.
Lemma mapM_str_key_perm l l' : Permutation (map (fun kv : string * pyv => (KStr (fst kv), snd kv)) l) l' -> exists l2, mapM str_key l' = Ok l2 /\ Permutation l l2.
Proof.
  intros H. apply Permutation_sym, Permutation_map_inv in H. destruct H as (l2&->&H). exists l2. split; [apply mapM_str_key|exact H].
Qed.

Lemma epoch_wf e : good_epoch e -> well_formed (epoch_value e) /\ no_singletons (epoch_value e).
Proof.
  intros Hg. pose proof (joined_In e) as J. unfold epoch_value. set (l := dict_joined _ _) in *.
  assert (Hok : dict_ok l) by (apply joined_ok; apply Hg).
  assert (Hv : forall k v, In (k, v) l -> well_formed v /\ no_singletons v).
  { intros k v Hin. apply J in Hin; [|exact Hg]. destruct Hg as (_&_&(_&He)&(_&Hm)&_). destruct Hin as [Hin|(k'&_&Hin)]; eauto. }
  assert (Hl : no_singletons (e_lr e)) by (destruct Hg as (Hf&_); destruct (e_lr e); try discriminate; exact I).
  destruct Hg as (_&Hw&_). cbn [well_formed no_singletons]. split; [split; [exact Hw|split]|split; [exact Hl|]].
  - rewrite map_map. cbn [fst]. rewrite <- (map_map fst KStr). apply NoDup_map_inj; [congruence|exact Hok].
  - clear - Hv. induction l as [|[k v] l IH]; cbn; [exact I|]. split; [apply (Hv k v); now left|apply IH; intros; eapply Hv; right; eauto].
  - clear - Hv. induction l as [|[k v] l IH]; cbn; [exact I|]. split; [apply (Hv k v); now left|apply IH; intros; eapply Hv; right; eauto].
Qed.

Lemma norm_float v : is_float v = true -> norm v = v.
Proof. destruct v; cbn; congruence. Qed.

Lemma dget_iff {K V} {E : EqB K} (d : dict K V) k v : dict_ok d -> (dget d k = Some v <-> In (k, v) d).
Proof. intros H. split; [apply dget_In|now apply In_dget]. Qed.
Lemma same_option_In {V} (R : V -> V -> Prop) (d d' : dict string V) (f : V -> V) : dict_ok d -> dict_ok d' ->
  (forall k v, In (k, v) d' <-> exists w, v = f w /\ In (k, w) d) -> (forall k v, In (k, v) d -> R v (f v)) -> forall k, same_option R (dget d k) (dget d' k).
Proof.
  intros Hd Hd' H HR k. destruct (dget d k) as [w|] eqn:E.
  - assert (E' : dget d' k = Some (f w)) by (apply dget_iff; [exact Hd'|]; apply H; exists w; split; [reflexivity|now apply dget_In]). rewrite E'. cbn. eapply HR. apply dget_In. exact E.
  - destruct (dget d' k) as [v|] eqn:E'; [|exact I]. apply dget_In in E'. apply H in E'. destruct E' as (w&_&Hin). rewrite (In_dget _ _ _ Hd Hin) in E. discriminate.
Qed.

Lemma flat_map_In {A B} (f : A -> list B) l y : In y (flat_map f l) <-> exists x, In x l /\ In y (f x).
Proof. apply in_flat_map. Qed.
Lemma NoDup_filter_keys {K V} (p : K * V -> bool) (l : list (K * V)) : NoDup (map fst l) -> NoDup (map fst (filter p l)).
Proof.
  induction l as [|x l IH]; cbn; [auto|]. intros H. apply NoDup_cons_iff in H. destruct H as [Hni H]. destruct (p x); [|auto]. cbn. constructor; [|auto].
  intros Hin. apply Hni. apply in_map_iff in Hin. destruct Hin as (y&<-&Hy). apply in_map. now apply filter_In in Hy.
Qed.
Lemma NoDup_stripped (l : list (string * pyv)) : NoDup (map fst l) ->
  NoDup (map fst (flat_map (fun kv => match strip meta_prefix (fst kv) with Some k => [(k, snd kv)] | None => [] end) l)).
Proof.
  induction l as [|x l IH]; cbn [map flat_map]; [auto|]. intros H. apply NoDup_cons_iff in H. destruct H as [Hni H]. destruct (strip meta_prefix (fst x)) as [k|] eqn:E; [|auto]. cbn [map app fst]. constructor; [|auto].
  intros Hin. apply Hni. apply in_map_iff in Hin. destruct Hin as ((k2&v2)&E2&Hy). cbn in E2. subst k2. apply flat_map_In in Hy. destruct Hy as (y&Hy&Hin). cbv beta in Hin. destruct (strip meta_prefix (fst y)) as [k2|] eqn:E3; [|destruct Hin].
  destruct Hin as [Hin|[]]. injection Hin as -> <-. apply strip_Some in E, E3. replace (fst x) with (fst y) by congruence. apply in_map. exact Hy.
Qed.

Lemma load_epoch e n : good_epoch e -> exists e', load_entry (KInt n, norm (epoch_value e)) = Ok (n, e') /\ same_epoch e e'.
Proof.
  intros Hg. pose proof Hg as (Hf&Hw&(He&Hev)&(Hm&Hmv)&Hp). unfold epoch_value. cbn [norm load_entry]. rewrite (norm_float _ Hf). unfold make_epoch. rewrite Hf. cbn [bind].
  set (l := dict_joined _ _). pose proof (joined_In e) as J. fold l in J.
  rewrite map_map. cbn [fst snd]. destruct (mapM_str_key_perm (map (fun kv => (fst kv, norm (snd kv))) l) (sort_items (map (fun kv => (KStr (fst kv), norm (snd kv))) l))) as (l2&El2&Hperm).
  { rewrite map_map. cbn [fst snd]. symmetry. apply sort_perm. }
  rewrite El2. cbn [bind]. eexists. split; [reflexivity|].
  assert (Hl2 : forall k v, In (k, v) l2 <-> exists w, v = norm w /\ In (k, w) l).
  { intros k v. split.
    - intros Hin. apply (Permutation_in _ (Permutation_sym Hperm)) in Hin. apply in_map_iff in Hin. destruct Hin as ((k'&w)&E&Hin). injection E as <- <-. eauto.
    - intros (w&->&Hin). eapply Permutation_in; [exact Hperm|]. apply in_map_iff. exists (k, w). auto. }
  assert (Hl2ok : NoDup (map fst l2)).
  { eapply Permutation_NoDup; [apply Permutation_map; exact Hperm|]. rewrite map_map. cbn [fst]. apply (joined_ok (e_error e) _ He). }
  split; [reflexivity|]. cbn [e_error e_meta]. split.
  - apply (same_option_In same _ _ norm He); [now apply NoDup_filter_keys| |intros k v Hin; apply norm_same; eapply Hev; eauto].
    intros k v. rewrite filter_In. cbn [fst]. rewrite Hl2. split.
    + intros [(w&->&Hin) Hs]. exists w. split; [reflexivity|]. apply J in Hin; [|exact Hg]. destruct Hin as [Hin|(k'&->&_)]; [exact Hin|]. rewrite strip_app in Hs. discriminate.
    + intros (w&->&Hin). split; [exists w; split; [reflexivity|apply J; auto]|]. rewrite Hp; [reflexivity|]. apply in_map_iff. exists (k, w). auto.
  - apply (same_option_In same _ _ norm Hm); [now apply NoDup_stripped| |intros k v Hin; apply norm_same; eapply Hmv; eauto].
    intros k v. rewrite flat_map_In. split.
    + intros ((k2&v2)&Hin&H). cbn [fst snd] in H. destruct (strip meta_prefix k2) as [k3|] eqn:E; [|destruct H]. destruct H as [H|[]]. injection H as -> ->. apply strip_Some in E. subst k2.
      apply Hl2 in Hin. destruct Hin as (w&->&Hin). exists w. split; [reflexivity|]. apply J in Hin; [|exact Hg]. destruct Hin as [Hin|(k'&E&Hin)].
      * exfalso. specialize (Hp (meta_prefix +++ k) (in_map fst _ _ Hin)). rewrite strip_app in Hp. discriminate.
      * apply (f_equal (strip meta_prefix)) in E. rewrite !strip_app in E. injection E as ->. exact Hin.
    + intros (w&->&Hin). exists (meta_prefix +++ k, norm w). split; [apply Hl2; exists w; split; [reflexivity|]; apply J; eauto|]. cbn [fst snd]. rewrite strip_app. now left.
Qed.

Lemma mapM_load l : (forall n e, In (n, e) l -> good_epoch e) ->
  exists l', mapM load_entry (map (fun ne => (KInt (fst ne), norm (epoch_value (snd ne)))) l) = Ok l' /\ Forall2 (fun a b => fst a = fst b /\ same_epoch (snd a) (snd b)) l l'.
Proof.
  induction l as [|[n e] l IH]; intros H; cbn [map mapM fst snd]; [exists []; split; [reflexivity|constructor]|].
  destruct (load_epoch e n) as (e'&E&S); [eapply H; now left|]. destruct IH as (l'&E'&F); [intros; eapply H; right; eauto|]. exists ((n, e') :: l'). rewrite E. cbn [bind]. rewrite E'. cbn [bind].
  split; [reflexivity|]. constructor; auto.
Qed.
Lemma Forall2_dget {V} (R : V -> V -> Prop) (l l' : dict Z V) : Forall2 (fun a b => fst a = fst b /\ R (snd a) (snd b)) l l' -> forall n, same_option R (dget l n) (dget l' n).
Proof.
  induction 1 as [|[k v] [k' v'] l l' [Hk Hv] H IH]; intros n; cbn in *; [exact I|]. subst k'. destruct (Z.eqb k n); [exact Hv|apply IH].
Qed.
Lemma same_option_refl_perm {V} (l l' : dict Z V) : dict_ok l -> Permutation l l' -> forall n, dget l n = dget l' n.
Proof.
  intros Hok Hp n. assert (Hok' : dict_ok l') by (eapply Permutation_NoDup; [apply Permutation_map; exact Hp|exact Hok]).
  destruct (dget l n) as [v|] eqn:E.
  - symmetry. apply In_dget; [exact Hok'|]. eapply Permutation_in; [exact Hp|]. now apply dget_In.
  - destruct (dget l' n) as [v|] eqn:E'; [|reflexivity]. apply dget_In in E'. apply (Permutation_in _ (Permutation_sym Hp)) in E'. rewrite (In_dget _ _ _ Hok E') in E. discriminate.
Qed.

Lemma round_trip d t : good_data d -> text_of d = Ok t -> exists d', load t = Ok d' /\ same_data d d'.
Proof.
  intros [Hok Hg] Ht. unfold text_of in Ht. apply bind_Ok in Ht. destruct Ht as (t'&Ht&E). apply Ok_inj in E. subst t.
  set (l := map (fun ne => (KInt (fst ne), epoch_value (snd ne))) d) in *.
  assert (Hw : well_formed (VDict l) /\ no_singletons (VDict l)).
  { split; [split|].
    - subst l. rewrite map_map. cbn [fst]. rewrite <- (map_map fst KInt). apply NoDup_map_inj; [congruence|exact Hok].
    - subst l. clear - Hg. induction d as [|[n e] d IH]; cbn -[epoch_value]; [exact I|]. split; [apply epoch_wf; eapply Hg; now left|apply IH; intros; eapply Hg; right; eauto].
    - subst l. clear - Hg. cbn -[epoch_value]. induction d as [|[n e] d IH]; cbn -[epoch_value]; [exact I|]. split; [apply epoch_wf; eapply Hg; now left|apply IH; intros; eapply Hg; right; eauto]. }
  unfold load. change (String.append t' newline) with (t' +++ newline). rewrite (eval_better_repr (VDict l) t' newline) by (try apply Hw; auto). cbn [bind norm].
  assert (Hp : exists d2, Permutation d d2 /\ sort_items (map (fun kv => (fst kv, norm (snd kv))) l) = map (fun ne => (KInt (fst ne), norm (epoch_value (snd ne)))) d2).
  { pose proof (sort_perm (map (fun kv => (fst kv, norm (snd kv))) l)) as Hp. unfold l in Hp at 2. rewrite map_map in Hp. cbn [fst snd] in Hp. apply Permutation_map_inv in Hp. destruct Hp as (d2&E&Hp). exists d2. auto. }
  destruct Hp as (d2&Hp&->). destruct (mapM_load d2) as (d'&E&F).
  { intros n e Hin. apply (Hg n e). eapply Permutation_in; [symmetry; exact Hp|exact Hin]. }
  exists d'. split; [exact E|]. intros n. rewrite (same_option_refl_perm d d2 Hok Hp n). now apply Forall2_dget.
Qed.

(** * The file *)
Definition file_is (f : option string) (es : list event) : Prop :=
  match f with
  | None => ~ ever_saved es
  | Some t => ever_saved es /\ text_of (last_saved [] es) = Ok t
  end.
Definition inv (s : disk * process) (es : list event) : Prop :=
  file_is (d_file (fst s)) es /\
  match snd s with Saving d w r => d_tmp (fst s) = Some w /\ text_of d = Ok (w +++ r) | _ => True end.

Lemma last_saved_app acc es es' : last_saved acc (es ++ es') = last_saved (last_saved acc es) es'.
Proof. revert acc. induction es as [|[d|d] es IH]; intros acc; cbn; auto. Qed.
Lemma inv_step s es s' es' : inv s es -> step s es' s' -> inv s' (es ++ es').
Proof.
  intros [Hf Hp] Hs. unfold file_is in *. inversion Hs; subst; cbn [fst snd d_file d_tmp] in *; rewrite ?app_nil_r; split; auto.
  - cbn. intros (d&Hin). apply in_app_iff in Hin. destruct Hin as [Hin|[Hin|[]]]; [|discriminate]. apply Hf. now exists d.
  - cbn. destruct Hf as [(d'&Hin) Ht]. split; [exists d'; apply in_app_iff; now left|]. rewrite last_saved_app. exact Ht.
  - split; [reflexivity|assumption].
  - destruct Hp as [Ht Hp]. split; [reflexivity|]. now rewrite app_s_assoc.
  - destruct Hp as [Ht Hp]. rewrite app_s_nil in Hp. injection Ht as ->. cbn. split; [exists d; apply in_app_iff; right; now left|]. rewrite last_saved_app. exact Hp.
  - exact I.
  - exact I.
Qed.
Lemma inv_steps s0 es s : inv s0 [] -> steps s0 es s -> inv s es.
Proof. intros H0 H. induction H as [|s1 s2 s3 es1 es2 H IH Hs]; [exact H0|]. eapply inv_step; eauto. Qed.

Lemma old_format n lr x t : is_float lr = true -> well_formed lr -> well_formed x -> no_singletons x ->
  better_repr (VDict [(KInt n, VCall lr x)]) = Ok t ->
  (is_float x = true -> load (t ++ newline) = Ok [(n, mk_epoch lr [("old_format_score"%string, x)] [])]) /\
  (match x with VNone | VDict _ => False | _ => is_float x = false end -> exists e, load (t ++ newline) = Err e).
Proof.
  intros Hl Hw Hx Hn Ht.
  assert (E : eval (t ++ newline) = Ok (norm (VDict [(KInt n, VCall lr x)]))).
  { apply eval_better_repr; [|cbn; repeat split; auto|exact Ht|now right].
    - cbn. split; [|auto]. constructor; [intros []|constructor].
    - destruct lr; cbn in Hl; try discriminate; exact I. }
  unfold load. rewrite E. cbn [bind norm map sort_items fold_right insert_item fst snd mapM load_entry].
  assert (El : norm lr = lr) by (destruct lr; cbn in Hl; try discriminate; reflexivity). rewrite El. unfold make_epoch. rewrite Hl. cbn [bind]. split.
  - intros Hf. destruct x; cbn in Hf; try discriminate; reflexivity.
  - intros Hf. destruct x; cbn in Hf; try discriminate; try contradiction; eexists; reflexivity.
Qed.
