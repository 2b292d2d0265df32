From Verif Require Import Base ListLemmas PyDict LrModel CkptModel CkptSpec CkptProofs ResumeModel ResumeSpec.
Local Open Scope nat_scope. Local Open Scope list_scope.
Local Open Scope Z_scope.

Lemma In_drop x y l : In y (drop x l) <-> In y l /\ y <> x.
Proof. unfold drop. rewrite filter_In, negb_true_iff, Z.eqb_neq. reflexivity. Qed.
Lemma In_set x y l : In y (x :: drop x l) <-> y = x \/ In y l.
Proof. cbn [In]. rewrite In_drop. destruct (Z.eq_dec y x); intuition. Qed.
Lemma epoch_range_In final e : In e (epoch_range final) <-> 1 <= e <= final.
Proof. unfold epoch_range. rewrite in_map_iff. split; [intros (i&<-&Hi); apply in_seq in Hi; lia|intros H; exists (Z.to_nat (e - 1)); split; [lia|apply in_seq; lia]]. Qed.
Lemma epoch_range_ascending final : ascending (epoch_range final).
Proof.
  unfold epoch_range. generalize 0%nat as k, (Z.to_nat final) as n. intros k n. revert k. induction n as [|n IH]; intros k; cbn [seq map ascending]; [exact I|]. split; [|apply IH].
  intros y Hy. apply in_map_iff in Hy. destruct Hy as (i&<-&Hi). apply in_seq in Hi. lia.
Qed.
Lemma existing_In f final b e : In e (get_existing_models f final b) <-> 1 <= e <= final /\ In e (f_model f) /\ (b = true -> In e (f_opt f)).
Proof.
  unfold get_existing_models. rewrite filter_In, epoch_range_In, andb_true_iff, orb_true_iff, negb_true_iff, !zmem_In. destruct b; intuition congruence.
Qed.
Lemma existing_ascending f final b : ascending (get_existing_models f final b).
Proof. apply ascending_filter, epoch_range_ascending. Qed.
Lemma last_In (l : list Z) d : l <> [] -> In (last l d) l.
Proof. induction l as [|x [|y l] IH]; [congruence|now left|]. intros _. right. apply IH. discriminate. Qed.
Lemma last_max l d : ascending l -> forall x, In x l -> x <= last l d.
Proof.
  induction l as [|a l IH]; intros Ha x Hx; [destruct Hx|]. destruct l as [|b l]; [destruct Hx as [->|[]]; cbn; lia|]. destruct Ha as [H1 H2].
  change (last (a :: b :: l) d) with (last (b :: l) d). destruct Hx as [<-|Hx]; [|now apply IH]. specialize (IH H2 b (or_introl eq_refl)). specialize (H1 b (or_introl eq_refl)). lia.
Qed.
Lemma auto_start_epoch f final : get_train_start_epoch f final auto_start = Ok (last (get_existing_models f final true) 0 + 1).
Proof. unfold get_train_start_epoch, get_epoch_model, auto_start. cbn [st_train st_start st_load st_load_epoch st_import bind]. destruct (get_existing_models f final true); reflexivity. Qed.

(** The invariant; [L] is the last completed epoch. *)
Definition no_save_between (c : config) (a b : Z) : Prop := forall j, a < j < b -> saves c j = false.
Definition proc_inv (c : config) (L : Z) (s : state) : Prop :=
  let ended e := (L = e /\ (forall m, In m (f_model (s_files s)) -> m <= L)) \/ (L < e /\ saves c e = false) in
  match s_proc s with
  | Down => True
  | Training e => L < e <= c_final c /\ no_save_between c L e
  | SavedModel e => L < e <= c_final c /\ no_save_between c L e /\ saves c e = true /\ In e (f_model (s_files s))
  | SavedOpt e => L = e /\ e <= c_final c /\ (forall m, In m (f_model (s_files s)) -> m <= L)
  | Trained e => ended e /\ no_save_between c L e /\ e <= c_final c
  | Cleaning e todo => L <= e <= c_final c /\ no_save_between c L (e + 1) /\ ~ In L todo
  | CleaningOpt e x todo => L <= e <= c_final c /\ no_save_between c L (e + 1) /\ ~ In L (x :: todo)
  end.
Definition inv (c : config) (L : Z) (s : state) : Prop :=
  0 <= L <= c_final c /\
  (L = 0 \/ resumable (s_files s) L) /\
  (forall e, In e (f_opt (s_files s)) -> 1 <= e <= L) /\
  (forall m, In m (f_model (s_files s)) -> 1 <= m <= c_final c /\ (m <= L \/ saves c m = true /\ no_save_between c L m)) /\
  proc_inv c L s.

Definition after (L : Z) (ev : event) : Z := match ev with Completed e => e | _ => L end.

Lemma start_epoch c L s : inv c L s -> get_train_start_epoch (s_files s) (c_final c) auto_start = Ok (L + 1).
Proof.
  intros (HL&Hres&Hopt&_). rewrite auto_start_epoch. f_equal. f_equal. set (l := get_existing_models _ _ _). destruct Hres as [->|[Hm Ho]].
  - destruct l as [|x l'] eqn:El; [reflexivity|]. exfalso. assert (Hx : In x l) by (rewrite El; now left). apply existing_In in Hx. destruct Hx as (Hr&_&Hx). specialize (Hopt _ (Hx eq_refl)). lia.
  - specialize (Hopt _ Ho) as Hpos. assert (HLl : In L l) by (apply existing_In; split; [lia|tauto]). pose proof (last_max l 0 (existing_ascending _ _ _) _ HLl) as H1.
    assert (Hne : l <> []) by (intros E; rewrite E in HLl; destruct HLl). pose proof (last_In l 0 Hne) as H2. apply existing_In in H2. destruct H2 as (_&_&H2). specialize (Hopt _ (H2 eq_refl)). lia.
Qed.

Lemma step_inv c L s ev s' : sensible c -> inv c L s -> step c s ev s' -> inv c (after L ev) s' /\ (forall e, ev = Started e -> e = L + 1).
Proof.
  intros (Hk&Hfin&Hsens) Hinv Hstep. pose proof (start_epoch _ _ _ Hinv) as Hst. destruct Hinv as (HL&Hres&Hopt&Hmod&Hp).
  destruct Hstep; cbn [after s_files s_proc] in *; unfold inv; cbn [s_files s_proc]; unfold proc_inv in *; cbn [s_files s_proc f_model f_opt] in *.
  - rewrite Hst in H. apply Ok_inj in H. subst e. split; [|intros e [= <-]; reflexivity]. split; [exact HL|]. split; [exact Hres|]. split; [exact Hopt|]. split; [exact Hmod|]. split; [lia|]. intros j Hj. lia.
  - split; [|congruence]. destruct Hp as [He Hno]. split; [exact HL|]. split.
    { destruct Hres as [->|[A B]]; [now left|right]. split; [cbn [f_model]; apply In_set; now right|exact B]. }
    split; [exact Hopt|]. split; [|split; [exact He|]; split; [exact Hno|]; split; [exact H|now left]]. intros m Hm. apply In_set in Hm. destruct Hm as [->|Hm]; [|now apply Hmod]. split; [lia|]. right. split; [exact H|exact Hno].
  - split; [|congruence]. destruct Hp as (He&Hno&Hs&Hin). split; [lia|]. split; [right; split; [exact Hin|now left]|]. split.
    { intros e' He'. apply In_set in He'. destruct He' as [->|He']; [lia|]. specialize (Hopt _ He'). lia. }
    assert (Hle : forall m, In m (f_model f) -> 1 <= m <= c_final c /\ m <= e).
    { intros m Hm. destruct (Hmod _ Hm) as (Hr&[Hle|(Hsm&Hnm)]); [lia|]. split; [exact Hr|]. destruct (Z.le_gt_cases m e) as [|Hgt]; [assumption|]. rewrite (Hnm e) in Hs by lia. discriminate. }
    split; [intros m Hm; specialize (Hle _ Hm); lia|]. split; [reflexivity|]. split; [lia|]. intros m Hm. now apply Hle.
  - split; [|congruence]. destruct Hp as (->&He&Hle). split; [exact HL|]. split.
    { destruct Hres as [->|[A B]]; [now left|right]. split; [exact A|]. cbn [f_opt]. destruct ((0 <? e - 2) && negb (c_apply_keep c)); [apply In_drop; split; [exact B|lia]|exact B]. }
    split. { intros e' He'. apply Hopt. destruct ((0 <? e - 2) && negb (c_apply_keep c)); [now apply In_drop in He'|exact He']. }
    split; [exact Hmod|]. split; [left; split; [reflexivity|exact Hle]|]. split; [intros j Hj; lia|exact He].
  - split; [|congruence]. destruct Hp as (He&Hno). split; [exact HL|]. split; [exact Hres|]. split; [exact Hopt|]. split; [exact Hmod|]. split; [right; split; [lia|exact H]|]. split; [exact Hno|lia].
  - split; [|congruence]. destruct Hp as (Hend&Hno&He). split; [exact HL|]. split; [exact Hres|]. split; [exact Hopt|]. split; [exact Hmod|]. split; [destruct Hend as [[-> _]|[Hl _]]; lia|]. split; [|intros []].
    intros j Hj. destruct (Z.eq_dec j e) as [->|Hne]; [destruct Hend as [[-> _]|[_ Hs]]; [lia|exact Hs]|apply Hno; lia].
  - split; [|congruence]. destruct Hp as (Hend&Hno&He). split; [exact HL|]. split; [exact Hres|]. split; [exact Hopt|]. split; [exact Hmod|]. split; [destruct Hend as [[-> _]|[Hl _]]; lia|]. split.
    { intros j Hj. destruct (Z.eq_dec j e) as [->|Hne]; [destruct Hend as [[-> _]|[_ Hs]]; [lia|exact Hs]|apply Hno; lia]. }
    set (l := get_existing_models f (c_final c) false) in *. intros Hin. pose proof (cleanup_last_pos _ _ _ _ _ H0 Hin) as Hlp.
    apply cleanup_spec in H0; [|apply existing_ascending|intros x Hx; apply existing_In in Hx; lia]. destruct H0 as [Hrm _]. apply Hrm in Hin. destruct Hin as (HLl&Hlen&Hnk). apply Hnk. right. left. split; [exact HLl|].
    rewrite H in Hsens.
    destruct Hend as [[-> Hle]|[Hlt Hns]].
    + exists []. split; [cbn; lia|]. intros e' He' Hlt. apply existing_In in He'. specialize (Hle e' (proj1 (proj2 He'))). lia.
    + destruct Hsens as [Hk1|Hl2].
      { unfold saves in Hns. rewrite Hk1, Z.mod_1_r in Hns. discriminate. }
      destruct (existsb (fun m => L <? m) l) eqn:Eex.
      * apply existsb_exists in Eex. destruct Eex as (m&Hm&HLm). apply Z.ltb_lt in HLm. exists [m]. split; [cbn; lia|]. intros e' He' Hlt'. left.
        apply existing_In in He', Hm. destruct (Hmod e') as (_&[?|(S1&N1)]); [tauto|lia|]. destruct (Hmod m) as (_&[?|(S2&N2)]); [tauto|lia|].
        destruct (Z.lt_total m e') as [Hc|[Hc|Hc]]; [rewrite (N1 m) in S2 by lia; discriminate|exact Hc|rewrite (N2 e') in S1 by lia; discriminate].
      * exists []. split; [cbn; lia|]. intros e' He' Hlt'. assert (existsb (fun m => L <? m) l = true); [|congruence]. apply existsb_exists. exists e'. split; [exact He'|now apply Z.ltb_lt].
  - split; [|congruence]. destruct Hp as (He&Hno&Hni). assert (x <> L) by (intros ->; apply Hni; now left). split; [exact HL|]. split.
    { destruct Hres as [->|[A B]]; [now left|right]. split; [cbn [f_model]; apply In_drop; auto|exact B]. }
    split; [exact Hopt|]. split; [intros m Hm; apply In_drop in Hm; now apply Hmod|]. split; [exact He|]. split; [exact Hno|exact Hni].
  - split; [|congruence]. destruct Hp as (He&Hno&Hni). assert (x <> L) by (intros ->; apply Hni; now left). split; [exact HL|]. split.
    { destruct Hres as [->|[A B]]; [now left|right]. split; [exact A|cbn [f_opt]; apply In_drop; auto]. }
    split; [intros e' He'; apply In_drop in He'; now apply Hopt|]. split; [exact Hmod|]. split; [exact He|]. split; [exact Hno|]. intros Hin. apply Hni. now right.
  - split; [|congruence]. destruct Hp as (He&Hno&Hni). split; [exact HL|]. split; [exact Hres|]. split; [exact Hopt|]. split; [exact Hmod|]. split; [lia|exact Hno].
  - split; [|congruence]. split; [exact HL|]. split; [exact Hres|]. split; [exact Hopt|]. split; [exact Hmod|exact I].
  - split; [|congruence]. split; [exact HL|]. split; [exact Hres|]. split; [exact Hopt|]. split; [exact Hmod|exact I].
Qed.

Lemma last_completed_snoc tr ev : last_completed (tr ++ [ev]) = after (last_completed tr) ev.
Proof. unfold last_completed. rewrite fold_left_app. reflexivity. Qed.
Lemma run_inv c tr s : sensible c -> run c fresh tr s -> inv c (last_completed tr) s.
Proof.
  intros Hs H. remember fresh as s0 eqn:E. induction H as [s0|s0 tr s1 ev s2 H IH Hstep].
  - subst. unfold inv, fresh, proc_inv. cbn. destruct Hs as (_&?&_). split; [lia|]. split; [now left|]. split; [intros e []|]. split; [intros e []|exact I].
  - rewrite last_completed_snoc. eapply step_inv; eauto.
Qed.
Lemma run_snoc_inv c s0 tr ev s : run c s0 (tr ++ [ev]) s -> exists s1, run c s0 tr s1 /\ step c s1 ev s.
Proof. intros H. remember (tr ++ [ev]) as l eqn:El. destruct H as [s1|s1 tr' s2 ev' s3 H1 H2]; [destruct tr; discriminate|]. apply app_inj_tail in El. destruct El as [-> ->]. eauto. Qed.
Lemma run_cons c s ev s1 tr s2 : step c s ev s1 -> run c s1 tr s2 -> run c s (ev :: tr) s2.
Proof.
  intros Hs H. induction H as [s'|s' tr s1' ev' s2' H IH Hstep]; [change [ev] with ([] ++ [ev]); eapply run_step; [constructor|exact Hs]|].
  change (ev :: tr ++ [ev']) with ((ev :: tr) ++ [ev']). eapply run_step; eauto.
Qed.
Lemma start_epoch_obeyed f final s e : 1 <= s -> (exists x, 1 <= x <= final /\ resumable f x) ->
  get_train_start_epoch f final (mk_start true (Some s) None (-1) false) = Ok e -> e = s /\ (1 < s -> resumable f (s - 1)).
Proof.
  intros Hs (x&Hx&Hm&Ho). unfold get_train_start_epoch, get_epoch_model. cbn [st_train st_start st_load st_load_epoch st_import negb orb andb].
  assert (Hin : In x (get_existing_models f final true)) by (apply existing_In; tauto). assert (Hne : get_existing_models f final true <> []) by (intros E; rewrite E in Hin; destruct Hin).
  pose proof (last_In _ 0 Hne) as Hl. apply existing_In in Hl. set (l := get_existing_models f final true) in *.
  assert (E1 : (1 <=? s) = true) by now apply Z.leb_le. rewrite E1. cbn [bind assert_ Z.gtb Z.compare].
  destruct l as [|a l'] eqn:El; [congruence|]. cbv zeta iota. cbn [fst snd]. assert (E2 : last (a :: l') 0 =? 0 = false) by (apply Z.eqb_neq; lia). rewrite E2. cbn [negb].
  destruct (Z.eqb_spec s 1) as [->|Hs1]; [cbn [fst bind]; intros H; apply Ok_inj in H; subst; split; [reflexivity|lia]|].
  destruct (zmem (s - 1) (a :: l')) eqn:Ez; [|discriminate]. cbn [fst bind]. intros H. apply Ok_inj in H. split; [lia|]. intros _. apply zmem_In in Ez. rewrite <- El in Ez. apply existing_In in Ez. split; [tauto|]. now apply Ez.
Qed.

Lemma saves_due c e : 1 <= c_interval c -> saves c e = true <-> due c e.
Proof. intros Hi. unfold saves, due. rewrite orb_true_iff, !Z.eqb_eq, Z.mod_divide by lia. reflexivity. Qed.
Lemma completes_due c tr e s : sensible c -> run c fresh (tr ++ [Completed e]) s ->
  last_completed tr < e <= c_final c /\ due c e /\ forall j, last_completed tr < j < e -> ~ due c j.
Proof.
  intros Hs H. apply run_snoc_inv in H. destruct H as (s1&H1&H2). pose proof (run_inv _ _ _ Hs H1) as (_&_&_&_&Hp). inversion H2; subst. cbn in Hp. destruct Hp as (Hr&Hn&Hd&_).
  destruct Hs as (Hi&_). split; [exact Hr|]. split; [now apply saves_due|]. intros j Hj Hdue. apply saves_due in Hdue; [|exact Hi]. specialize (Hn j Hj). congruence.
Qed.
Lemma auto_start_model f final : get_epoch_model f final auto_start =
  Ok (match get_existing_models f final true with [] => (None, None) | l => (Some (last l 0), Some (Checkpoint (last l 0))) end).
Proof. unfold get_epoch_model, auto_start. cbn [st_train st_start st_load st_load_epoch st_import bind]. destruct (get_existing_models f final true); reflexivity. Qed.
Lemma auto_loads c L s : inv c L s -> get_epoch_model (s_files s) (c_final c) auto_start = Ok (if L =? 0 then (None, None) else (Some L, Some (Checkpoint L))).
Proof.
  intros H. pose proof (start_epoch c L s H) as He. rewrite auto_start_epoch in He. apply Ok_inj in He. rewrite auto_start_model. destruct H as (HL&Hres&Hopt&_). f_equal.
  destruct (get_existing_models (s_files s) (c_final c) true) as [|x l] eqn:El.
  - cbn in He. destruct (Z.eqb_spec L 0); [reflexivity|lia].
  - assert (Hl : last (x :: l) 0 = L) by lia. change ((Some (last (x :: l) 0), Some (Checkpoint (last (x :: l) 0))) = (if L =? 0 then (None, None) else (Some L, Some (Checkpoint L)))). rewrite Hl. destruct (Z.eqb_spec L 0) as [->|_]; [|reflexivity]. exfalso.
    assert (Hx : In x (get_existing_models (s_files s) (c_final c) true)) by (rewrite El; now left). apply existing_In in Hx. destruct Hx as (Hr&_&Hx). specialize (Hopt _ (Hx eq_refl)). lia.
Qed.
Lemma loads_matching f final o ep c : get_epoch_model f final o = Ok (ep, Some (Checkpoint c)) ->
  1 <= c <= final /\ In c (f_model f) /\ (st_train o = true -> In c (f_opt f)) /\
  (ep = Some c \/ ep = None /\ st_train o = true /\ st_start o <> None /\ st_load_epoch o = c).
Proof.
  unfold get_epoch_model. cbv zeta. set (ex := get_existing_models f final (st_train o)).
  assert (Hex : forall x, In x ex -> 1 <= x <= final /\ In x (f_model f) /\ (st_train o = true -> In x (f_opt f))) by (intros x Hx; now apply existing_In).
  intros H. apply bind_Ok in H. destruct H as (?&_&H). apply bind_Ok in H. destruct H as (load&Hload&H).
  assert (Hl : forall ep0 c0, load = Some (ep0, Checkpoint c0) -> ep0 = Some c0 /\ st_load_epoch o = c0 /\ In c0 ex).
  { intros ep0 c0 ->. destruct (st_load o); [discriminate|]. destruct (st_load_epoch o >? 0); [|discriminate]. apply bind_Ok in Hload. destruct Hload as (?&Hz&Hload). apply assert_Ok in Hz. apply zmem_In in Hz. apply Ok_inj in Hload. injection Hload as <- <-. auto. }
  clear Hload. match type of H with context [match load with _ => _ end] => set (em := match load with Some _ => _ | None => _ end) in H end.
  assert (Hem : forall c0 ep0, em = (ep0, Some (Checkpoint c0)) -> In c0 ex /\ (ep0 = Some c0 \/ ep0 = None /\ st_train o = true /\ st_start o <> None /\ st_load_epoch o = c0)).
  { intros c0 ep0 E.
    assert (Hlast : ex <> [] -> (Some (last ex 0), Some (Checkpoint (last ex 0))) = (ep0, Some (Checkpoint c0)) -> In c0 ex /\ ep0 = Some c0).
    { intros Hne [= <- <-]. split; [now apply last_In|reflexivity]. }
    unfold em in E. destruct load as [[ep1 fn]|].
    - destruct (negb (st_train o) || match st_start o with Some _ => true | None => false end) eqn:Eb.
      + injection E as <- ->. destruct (Hl _ _ eq_refl) as (->&H1&H2). split; [exact H2|]. destruct (st_train o) eqn:Et; [|now left]. right. destruct (st_start o); [|discriminate]. repeat split; [discriminate|exact H1].
      + destruct ex as [|x1 l1] eqn:Ee; [|destruct Hlast as [A B]; [discriminate|exact E|split; [exact A|now left]]].
        destruct (st_train o && st_import o && _); [discriminate|]. injection E as <- ->. destruct (Hl _ _ eq_refl) as (->&H1&H2). destruct H2.
    - destruct ex as [|x1 l1] eqn:Ee; [|destruct Hlast as [A B]; [discriminate|exact E|split; [exact A|now left]]].
      destruct (st_train o && st_import o && _); discriminate. }
  assert (Hgo : forall c0 ep0, In c0 ex /\ (ep0 = Some c0 \/ ep0 = None /\ st_train o = true /\ st_start o <> None /\ st_load_epoch o = c0) ->
    1 <= c0 <= final /\ In c0 (f_model f) /\ (st_train o = true -> In c0 (f_opt f)) /\ (ep0 = Some c0 \/ ep0 = None /\ st_train o = true /\ st_start o <> None /\ st_load_epoch o = c0)).
  { intros c0 ep0 [H1 H2]. destruct (Hex c0 H1) as (A&B&C). auto. }
  apply Hgo. clear Hgo. clearbody em. destruct (st_start o) as [s0|] eqn:Es; [|apply Ok_inj in H; now apply Hem].
  destruct (s0 =? 1); [apply Ok_inj in H; destruct (match fst em with Some e => _ | None => _ end); [discriminate|now apply Hem]|].
  destruct (match fst em with Some e => _ | None => _ end); [|apply Ok_inj in H; now apply Hem].
  destruct (zmem (s0 - 1) ex) eqn:Ez; [|discriminate]. apply Ok_inj in H. injection H as <- <-. apply zmem_In in Ez. split; [exact Ez|now left].
Qed.
