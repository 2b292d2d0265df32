(** Properties C20 and C21: learning rate control. *)
From Coq Require Import Ascii String QArith Qabs Lqa.
From Verif Require Import Base ListLemmas PyDict PySort LrModel LrSpec LrProofs LrKeyProofs.
Local Open Scope nat_scope. Local Open Scope list_scope.
Local Notation length := List.length.

(** C20: for every controller and every history: a learning rate that is not given in advance is the previous one, or (except for a constant schedule) the decayed previous one
    clipped to the minimum, or the grown previous one. It is then recorded for this epoch, and nothing else changes. *)
Theorem C20_keeps_decays_or_grows : forall c epoch lr c',
  get_lr c epoch = Ok (lr, c') ->
  (exists ed, dget (c_data c) epoch = Some ed /\ lr = d_lr ed /\ c' = c) \/
  (dget (c_data c) epoch = None /\ c' = with_data c (dset (c_data c) epoch (mk_data lr [])) /\
   exists prev, previous_lr c epoch prev /\
     (lr = prev \/
      (c_kind c <> Constant /\
       let decayed := calc_update prev (c_decay c) in
       ((c_min c <= decayed)%Q /\ lr = decayed \/ (decayed < c_min c)%Q /\ lr = c_min c \/ lr = calc_update prev (c_growth c))))).
Proof.
  intros c epoch lr c' H. apply get_lr_spec in H. destruct H as [_ [(ed&E&H)|(E&H&->)]]; [left; eauto|right]. split; [exact E|]. split; [reflexivity|].
  exists (prev_expr c epoch). split; [apply prev_expr_spec|]. apply calc_new_lr_one_of in H. destruct H as [H|[Hk H]]; [now left|right]. split; [exact Hk|]. cbv zeta.
  destruct H as [->|H]; [|auto]. unfold clipped_decay. destruct (Qlt_bool _ _) eqn:El; [apply Qlt_bool_iff in El; auto|apply Qlt_bool_false in El; auto].
Qed.
Print Assumptions C20_keeps_decays_or_grows.

(** C20: asking again gives the same answer, whatever happened to other epochs and scores in between. *)
Theorem C20_same_answer_again : forall c epoch lr c' ops c'' lr'' c''',
  get_lr c epoch = Ok (lr, c') -> run c' ops = Ok c'' -> get_lr c'' epoch = Ok (lr'', c''') -> lr'' = lr.
Proof.
  intros c epoch lr c' ops c'' lr'' c''' H1 H2 H3.
  assert (Hrec : exists ed, dget (c_data c') epoch = Some ed /\ d_lr ed = lr).
  { apply get_lr_spec in H1. destruct H1 as [_ [(ed&E&->&->)|(E&_&->)]]; [eauto|]. exists (mk_data lr []). cbn. rewrite dget_dset_eq. auto. }
  assert (Hstep : forall c1 c2 o, exec c1 o = Ok c2 -> (exists ed, dget (c_data c1) epoch = Some ed /\ d_lr ed = lr) -> exists ed, dget (c_data c2) epoch = Some ed /\ d_lr ed = lr).
  { assert (Hget : forall c1 c2 e x, get_lr c1 e = Ok (x, c2) -> (exists ed, dget (c_data c1) epoch = Some ed /\ d_lr ed = lr) -> exists ed, dget (c_data c2) epoch = Some ed /\ d_lr ed = lr).
    { intros c1 c2 e x H (ed&E&El). apply get_lr_spec in H. destruct H as [_ [(ed'&_&_&->)|(E'&_&->)]]; [eauto|]. exists ed. cbn. rewrite dget_dset_neq by (intros ->; congruence). auto. }
    intros c1 c2 [e|e s] H Hr; cbn in H.
    - apply bind_Ok in H. destruct H as ([x c3]&H&H'). apply Ok_inj in H'. subst. eapply Hget; eauto.
    - unfold set_epoch_error in H. apply bind_Ok in H. destruct H as (c3&H&H').
      assert (Hr3 : exists ed, dget (c_data c3) epoch = Some ed /\ d_lr ed = lr).
      { destruct (dget (c_data c1) e); [apply Ok_inj in H; now subst|]. apply bind_Ok in H. destruct H as ([x c4]&H&H''). apply Ok_inj in H''. subst. eapply Hget; eauto. }
      destruct (dget (c_data c3) e) as [ed3|] eqn:E3; [|discriminate]. apply Ok_inj in H'. subst c2. destruct Hr3 as (ed&E&El). cbn [c_data with_data]. rewrite dget_dset.
      destruct (keqb e epoch) eqn:Ek; [|eauto]. apply keqb_eq in Ek. subst e. eexists. split; [reflexivity|]. cbn. congruence. }
  assert (Hrun : exists ed, dget (c_data c'') epoch = Some ed /\ d_lr ed = lr).
  { clear H1 H3. revert c' H2 Hrec. induction ops as [|o ops IH]; intros c' H Hr; cbn in H; [apply Ok_inj in H; now subst|]. apply bind_Ok in H. destruct H as (c1&H1&H). eapply IH; eauto. }
  destruct Hrun as (ed&E&El). apply get_lr_spec in H3. destruct H3 as [_ [(ed'&E'&->&_)|(E'&_)]]; congruence.
Qed.
Print Assumptions C20_same_answer_again.

(** C20: if the given learning rates are not below the minimum, and the growth does not go below it, then no learning rate of the whole training is. *)
Theorem C20_minimum : forall c rates ops c' epoch lr c'',
  (c_min c <= c_default c)%Q -> growth_keeps_min c -> (forall e x, In (e, x) rates -> (c_min c <= x)%Q) ->
  run (init c rates) ops = Ok c' -> get_lr c' epoch = Ok (lr, c'') -> (c_min c <= lr)%Q.
Proof.
  intros c rates ops c' epoch lr c'' Hd Hg Hr H1 H2.
  assert (Hstep : forall p r, (c_min c <= p)%Q -> one_of c p r -> (c_min c <= r)%Q) by (intros p r Hp [->|[_ [->| ->]]]; [exact Hp|apply clipped_decay_min|now apply Hg]).
  destruct (run_inv (fun q => (c_min c <= q)%Q) c Hd Hstep ops (init c rates) c') as [S A]; auto; [reflexivity| |].
  { apply init_inv. intros [e x] Hin. exact (Hr e x Hin). }
  eapply (get_lr_inv (fun q => (c_min c <= q)%Q) c Hd Hstep); eauto.
Qed.
Print Assumptions C20_minimum.

(** C20: a constant schedule stays constant. *)
Theorem C20_constant : forall c ops c' epoch lr c'',
  c_kind c = Constant -> run (init c []) ops = Ok c' -> get_lr c' epoch = Ok (lr, c'') -> lr = c_default c.
Proof.
  intros c ops c' epoch lr c'' Hk H1 H2.
  assert (Hstep : forall p r, p = c_default c -> one_of c p r -> r = c_default c) by (intros p r Hp [->|[Hc _]]; [exact Hp|congruence]).
  destruct (run_inv (fun q => q = c_default c) c eq_refl Hstep ops (init c []) c') as [S A]; auto; [reflexivity| |].
  { apply init_inv. intros ev []. }
  eapply (get_lr_inv (fun q => q = c_default c) c eq_refl Hstep); eauto.
Qed.
Print Assumptions C20_constant.

(** C20: with [learning_rate_control_min_num_epochs_per_new_lr = n], a new learning rate comes only after [n] epochs with the same one. *)
Theorem C20_minimal_number_of_epochs : forall c epoch lr c' prev,
  get_lr c epoch = Ok (lr, c') -> dget (c_data c) epoch = None -> previous_lr c epoch prev -> lr <> prev -> 1 < c_min_num c ->
  let before := epochs_before (c_data c) epoch in
  before <> [] -> c_min_num c <= length before /\
  forall e e' ed ed', In e (last_n (c_min_num c) before) -> In e' (last_n (c_min_num c) before) ->
    dget (c_data c) e = Some ed -> dget (c_data c) e' = Some ed' -> (d_lr ed == d_lr ed')%Q.
Proof.
  cbv zeta. intros c epoch lr c' prev H E Hp Hne Hn Hb. apply get_lr_spec in H. destruct H as [_ [(ed&E'&_)|(_&H&_)]]; [congruence|].
  apply calc_new_lr_spec in H. destruct H as [H|[_ H]]; [exfalso; apply Hne; rewrite H; eapply previous_unique; [apply prev_expr_spec|exact Hp]|].
  destruct (H Hn) as [Hl Hs]. unfold last_epochs_for_epoch in *. destruct (c_min_num c) as [|n] eqn:En; [lia|]. split.
  - destruct Hl as [Hl|Hl]; [|rewrite last_n_length in Hl; lia]. apply (f_equal (@length _)) in Hl. rewrite last_n_length in Hl. destruct (epochs_before (c_data c) epoch); [congruence|cbn in Hl; lia].
  - intros e e' ed ed' He He' Ee Ee'. apply (Hs e e'); auto; unfold lr_of; [rewrite Ee|rewrite Ee']; reflexivity.
Qed.
Print Assumptions C20_minimal_number_of_epochs.

(** C20: Newbob decays exactly if the relative change of the score is above the threshold, and grows otherwise. *)
Theorem C20_newbob_decision : forall c epoch e e2 key old new threshold ed,
  c_kind c = NewbobRelative threshold -> c_relative_lr c = false -> c_div_by_old c = false -> c_min_num c <= 1 ->
  last_before (c_data c) epoch e -> last_before (c_data c) e e2 -> dget (c_data c) e = Some ed ->
  scored c e2 key old -> scored c e key new -> ~ (new == 0)%Q ->
  calc_new_lr c epoch =
    (if Qlt_le_dec threshold ((new - old) / Qabs new)
     then Ok (if Qlt_le_dec (calc_update (d_lr ed) (c_decay c)) (c_min c) then c_min c else calc_update (d_lr ed) (c_decay c))
     else Ok (calc_update (d_lr ed) (c_growth c))).
Proof.
  intros c epoch e e2 key old new threshold ed Hk Hr Hd Hm Hl Hl2 Ee Ho Hn Hz. unfold calc_new_lr. destruct (Nat.ltb_spec 1 (c_min_num c)); [lia|]. cbn [andb].
  unfold calc_lr. rewrite Hk. pose proof (get_last_epoch_spec (c_data c) epoch) as G. destruct (get_last_epoch (c_data c) epoch) as [e'|]; [|destruct Hl as (A&B&_); specialize (G e A); lia].
  rewrite (last_before_unique _ _ _ _ G Hl). pose proof (get_last_epoch_spec (c_data c) e) as G2. destruct (get_last_epoch (c_data c) e) as [e2'|]; [|destruct Hl2 as (A&B&_); specialize (G2 e2 A); lia].
  rewrite (last_before_unique _ _ _ _ G2 Hl2). unfold lr_of. rewrite Ee. cbn [option_map]. unfold calc_relative_error, scored in *. rewrite Ho, Hn. cbn [bind]. rewrite String.eqb_refl. cbn [negb]. rewrite Hr, Hd.
  unfold pydiv. destruct (Qeq_bool (Qabs new) 0) eqn:Ez.
  { exfalso. apply Hz. apply Qeq_bool_iff in Ez. revert Ez. apply Qabs_case; intros; lra. }
  cbn [bind]. unfold decay_or_grow. destruct (Qlt_le_dec threshold ((new - old) / Qabs new)) as [Hx|Hx].
  - apply Qlt_bool_iff in Hx. rewrite Hx. cbn. destruct (Qlt_le_dec _ _) as [Hy|Hy]; [apply Qlt_bool_iff in Hy|apply Qlt_bool_false in Hy]; rewrite Hy; reflexivity.
  - apply Qlt_bool_false in Hx. rewrite Hx. reflexivity.
Qed.
Print Assumptions C20_newbob_decision.

(** C20: the same for all options of the relative change. *)
Theorem C20_newbob_relative_decision : forall c epoch e e2 key x threshold prev,
  c_kind c = NewbobRelative threshold -> c_min_num c <= 1 -> (1 <= epoch)%Z -> dget (c_data c) epoch = None ->
  last_before (c_data c) epoch e -> last_before (c_data c) e e2 -> change_between c key e2 e x -> previous_lr c epoch prev ->
  exists lr c', get_lr c epoch = Ok (lr, c') /\
    lr = (if Qlt_le_dec threshold x
          then if Qlt_le_dec (calc_update prev (c_decay c)) (c_min c) then c_min c else calc_update prev (c_decay c)
          else calc_update prev (c_growth c)).
Proof.
  intros c epoch e e2 key x threshold prev Hk Hm H1 E Hl Hl2 Hx Hp. unfold get_lr. rewrite (proj2 (Z.leb_le 1 epoch) H1). cbn [assert_ bind]. unfold lr_of at 1. rewrite E. cbn [option_map].
  assert (G : calc_new_lr c epoch = Ok (if Qlt_le_dec threshold x
          then if Qlt_le_dec (calc_update prev (c_decay c)) (c_min c) then c_min c else calc_update prev (c_decay c)
          else calc_update prev (c_growth c))); [|rewrite G; cbn [bind]; eauto].
  unfold calc_new_lr. destruct (Nat.ltb_spec 1 (c_min_num c)); [lia|]. cbn [andb]. unfold calc_lr. rewrite Hk.
  rewrite (previous_unique c epoch prev _ Hp (prev_expr_spec c epoch)). unfold prev_expr.
  pose proof (get_last_epoch_spec (c_data c) epoch) as G. destruct (get_last_epoch (c_data c) epoch) as [e'|]; [|destruct Hl as (A&B&_); specialize (G e A); lia].
  rewrite (last_before_unique _ _ _ _ G Hl). clear G. pose proof (get_last_epoch_spec (c_data c) e) as G. destruct (get_last_epoch (c_data c) e) as [e2'|]; [|destruct Hl2 as (A&B&_); specialize (G e2 A); lia].
  rewrite (last_before_unique _ _ _ _ G Hl2). rewrite (relative_error_spec c key e2 e x Hx). cbn [bind]. set (lr := match lr_of (c_data c) e with Some lr => lr | None => c_default c end).
  unfold decay_or_grow. destruct (Qlt_le_dec threshold x) as [Hd|Hd].
  - apply Qlt_bool_iff in Hd. rewrite Hd. cbn [negb andb assert_ bind]. destruct (Qlt_le_dec _ _) as [Hy|Hy]; [apply Qlt_bool_iff in Hy|apply Qlt_bool_false in Hy]; rewrite Hy; reflexivity.
  - apply Qlt_bool_false in Hd. rewrite Hd. reflexivity.
Qed.
Print Assumptions C20_newbob_relative_decision.

(** C20: NewbobMultiEpoch changes the learning rate only in every [interval]-th epoch, counted from epoch 1. *)
Theorem C20_multi_epoch_interval : forall c epoch n interval t g lr c' prev,
  c_kind c = NewbobMultiEpoch n interval t g -> 1 < interval -> dget (c_data c) epoch = None ->
  get_lr c epoch = Ok (lr, c') -> previous_lr c epoch prev -> lr <> prev -> (epoch mod Z.of_nat interval = 1)%Z.
Proof.
  intros c epoch n interval t g lr c' prev Hk Hi E H Hp Hne. apply get_lr_spec in H. destruct H as [_ [(ed&E'&_)|(_&H&_)]]; [congruence|].
  rewrite (previous_unique c epoch prev _ Hp (prev_expr_spec c epoch)) in Hne. apply calc_new_lr_spec in H. destruct H as [H|[H _]]; [contradiction|].
  unfold calc_lr in H. rewrite Hk in H. rewrite (proj2 (Nat.ltb_lt 1 interval) Hi) in H. cbn [andb] in H.
  destruct (Z.eqb_spec (epoch mod Z.of_nat interval) 1) as [Em|_]; [exact Em|]. cbn [negb] in H. apply Ok_inj in H. exfalso. apply Hne. now rewrite <- H.
Qed.
Print Assumptions C20_multi_epoch_interval.

(** C20: in these epochs, the mean of the changes over the last [n] steps decides. *)
Theorem C20_multi_epoch_decision : forall c epoch n interval t g es key xs prev,
  c_kind c = NewbobMultiEpoch n interval t g -> 1 <= n -> (g <= t)%Q -> interval <= 1 \/ (epoch mod Z.of_nat interval = 1)%Z ->
  c_min_num c <= 1 -> (1 <= epoch)%Z -> dict_ok (c_data c) -> dget (c_data c) epoch = None ->
  recent_epochs (c_data c) epoch (n + 1) es -> 2 <= length es -> changes c key es xs -> previous_lr c epoch prev ->
  exists c', get_lr c epoch = Ok (decide c prev t g (average xs), c').
Proof.
  intros c epoch n interval t g es key xs prev Hk Hn Hg Hi Hm H1 Hok E Hr H2 Hc Hp. unfold get_lr. rewrite (proj2 (Z.leb_le 1 epoch) H1). cbn [assert_ bind]. unfold lr_of at 1. rewrite E. cbn [option_map].
  assert (G : calc_new_lr c epoch = Ok (decide c prev t g (average xs))); [|rewrite G; cbn [bind]; eauto].
  unfold calc_new_lr. destruct (Nat.ltb_spec 1 (c_min_num c)); [lia|]. cbn [andb]. unfold calc_lr. rewrite Hk.
  assert (Ei : (1 <? interval) && negb (epoch mod Z.of_nat interval =? 1)%Z = false).
  { destruct Hi as [Hi|Hi]; [now rewrite (proj2 (Nat.ltb_ge 1 interval) Hi)|]. rewrite Hi. cbn. apply andb_false_r. }
  rewrite Ei. unfold recent_mean_relative_error, last_epochs_for_epoch.
  rewrite <- (recent_unique _ _ _ _ _ Hr (recent_last_n (c_data c) epoch (n + 1) Hok ltac:(lia))).
  rewrite (proj2 (Nat.leb_gt (length es) 1) H2). destruct (relative_errors_spec c key es xs Hc) as [-> _]. cbn [bind]. rewrite all_some_map. cbn [option_map].
  rewrite multi_prev, <- (previous_unique c epoch prev _ Hp (prev_expr_spec c epoch)). now apply decide_spec.
Qed.
Print Assumptions C20_multi_epoch_decision.

(** C20: which of the recorded scores of an epoch is used: of the most preferred kind, and of these the first by name. *)
Theorem C20_score_choice : forall c epoch ed k, dget (c_data c) epoch = Some ed -> dict_ok (d_error ed) ->
  (get_error_key c epoch = Some k <-> preferred (score_kinds c) (dkeys (d_error ed)) k).
Proof. exact error_key_spec. Qed.
Print Assumptions C20_score_choice.

(** C20: scores of several outputs are recorded under the name of the score and the name of the output, which is what comes after the first colon; other scores of the epoch stay. *)
Theorem C20_score_names : forall c epoch ed k (outs : list (string * string * Q)) c',
  dget (c_data c) epoch = Some ed -> 2 <= length outs ->
  Forall (fun x => no_colon (fst (fst x))) outs -> NoDup (map (fun x => snd (fst x)) outs) ->
  set_epoch_error c epoch [(k, PerOutput (map (fun x => (fst (fst x) ++ ":" ++ snd (fst x), snd x)%string) outs))] = Ok c' ->
  exists ed', dget (c_data c') epoch = Some ed' /\ d_lr ed' = d_lr ed /\
    (forall x, In x outs -> dget (d_error ed') (k ++ "_" ++ snd (fst x))%string = Some (snd x)) /\
    (forall name, (forall x, In x outs -> name <> (k ++ "_" ++ snd (fst x))%string) -> dget (d_error ed') name = dget (d_error ed) name).
Proof.
  intros c epoch ed k outs c' E H2 Hc Hn H. unfold set_epoch_error in H. rewrite E in H. cbn [bind] in H. rewrite E in H. apply Ok_inj in H. subst c'. cbn [c_data with_data].
  rewrite dget_dset_eq. eexists. split; [reflexivity|]. split; [reflexivity|]. cbn [d_error].
  set (f := fun x : string * string * Q => (k ++ "_" ++ snd (fst x))%string).
  assert (Hf : NoDup (map f outs)).
  { unfold f. rewrite <- (map_map (fun x : string * string * Q => snd (fst x)) (fun o => (k ++ "_" ++ o)%string)). apply FinFun.Injective_map_NoDup; [|exact Hn].
    intros a b G. revert G. induction k as [|ch k IH]; cbn; intros G; [now injection G|]. injection G as G. now apply IH. }
  assert (Efl : flatten [(k, PerOutput (map (fun x => (fst (fst x) ++ ":" ++ snd (fst x), snd x)%string) outs))] = map (fun x => (f x, snd x)) outs).
  { unfold flatten. cbn [fold_left snd flatten1]. destruct outs as [|x [|y outs]]; [cbn in H2; lia|cbn in H2; lia|]. set (l := x :: y :: outs) in *.
    change (map (fun x => (fst (fst x) ++ ":" ++ snd (fst x), snd x)%string) l) with
      ((fst (fst x) ++ ":" ++ snd (fst x), snd x)%string :: (fst (fst y) ++ ":" ++ snd (fst y), snd y)%string :: map (fun x => (fst (fst x) ++ ":" ++ snd (fst x), snd x)%string) outs).
    cbv iota. change (ddel [] k) with (@nil (string * Q)).
    transitivity (fold_left (fun d x => dset d (f x) (snd x)) l (@nil (string * Q))).
    2:{ rewrite (fold_dset_new f snd l Hf []); [reflexivity|intros ? _ []]. }
    change ((fst (fst x) ++ ":" ++ snd (fst x), snd x)%string :: (fst (fst y) ++ ":" ++ snd (fst y), snd y)%string :: map (fun x => (fst (fst x) ++ ":" ++ snd (fst x), snd x)%string) outs)
      with (map (fun x => (fst (fst x) ++ ":" ++ snd (fst x), snd x)%string) l).
    clearbody l. clear - Hc. generalize (@nil (string * Q)) as d. induction l as [|z l IH]; intros d; [reflexivity|]. cbn [map fold_left fst snd]. apply Forall_cons_iff in Hc. destruct Hc as [Hz Hc].
    change (":" ++ snd (fst z))%string with (String ":" (snd (fst z))). rewrite (after_colon_app _ _ Hz). apply IH. exact Hc. }
  rewrite Efl. unfold dict_update.
  assert (Ek : map fst (map (fun x => (f x, snd x)) outs) = map f outs) by (rewrite map_map; apply map_ext; reflexivity).
  destruct (fold_dset_get (fun kv : string * Q => fst kv) (fun kv => snd kv) (map (fun x => (f x, snd x)) outs) (eq_ind_r (@NoDup string) Hf Ek) (d_error ed)) as [G1 G2]. split.
  - intros x Hx. exact (G1 (f x, snd x) (in_map (fun x => (f x, snd x)) outs x Hx)).
  - intros name Hname. apply G2. intros Hin. change (In name (map fst (map (fun x => (f x, snd x)) outs))) in Hin. rewrite Ek in Hin. apply in_map_iff in Hin. destruct Hin as (x&<-&Hx). exact (Hname x Hx eq_refl).
Qed.
Print Assumptions C20_score_names.

(** Newbob with the default options (as in tests/test_LearningRateControl.py, test_newbob): epoch 2 has the same learning rate, then it decays when the score gets worse. *)
Local Open Scope string_scope.
Definition ex_newbob : control := mk_control (NewbobRelative (-1 # 100)) (1 # 100) (1 # 1000) None false 0 false (Factor (1 # 2)) (Factor 1) [].
Definition ex_ops : list op :=
  [GetLr 1; SetError 1 [("train_score", PerOutput [("cost:output", 193 # 100)])]; SetError 1 [("dev_score", PerOutput [("cost:output", 199 # 100)]); ("dev_error", PerOutput [("error:output", 6 # 10)])];
   GetLr 2; SetError 2 [("dev_score", PerOutput [("cost:output", 19 # 10); ("cost:out2", 29 # 10)])];
   SetError 2 [("dev_score", Value (19 # 10))]; GetLr 3; SetError 3 [("dev_score", Value (21 # 10))]].
Example C20_ex :
  match run (init ex_newbob []) ex_ops with
  | Ok c => (map (fun e => option_map (fun d => Qred (d_lr d)) (dget (c_data c) e)) [1; 2; 3]%Z,
             option_map (fun d => dkeys (d_error d)) (dget (c_data c) 2%Z),
             match get_lr c 4 with Ok (lr, _) => Some (Qred lr) | _ => None end,
             get_error_key c 1)
            = ([Some (1 # 100); Some (1 # 100); Some (1 # 100)], Some ["dev_score_output"; "dev_score_out2"; "dev_score"], Some (1 # 200), Some "dev_score")
  | Err _ => False
  end.
Proof. vm_compute. reflexivity. Qed.

(** Of several scores of the most preferred kind, the first by name is used, also when it was recorded later. *)
Example C20_ex_score_choice :
  let c := mk_control (NewbobRelative (-1 # 100)) (1 # 100) (1 # 1000) None false 0 false (Factor (1 # 2)) (Factor 1)
             [(1%Z, mk_data 1 [("train_score", 5 # 1); ("dev_error", 1 # 1); ("dev_score_output/b", 3 # 1); ("dev_score_output/a", 2 # 1)])] in
  get_error_key c 1 = Some "dev_score_output/a".
Proof. reflexivity. Qed.

(** NewbobMultiEpoch over the last two changes, in every second epoch: in epoch 4 it keeps the learning rate, in epoch 5 it decays it. *)
Definition ex_multi : control :=
  mk_control (NewbobMultiEpoch 2 2 (-1 # 100) (-1 # 100)) 1 0 None true 0 false (Factor (1 # 2)) (Factor 1)
    (map (fun ev => (fst ev, mk_data 1 [("dev_score", snd ev)])) [(1, 5 # 1); (2, 2 # 1); (3, 2 # 1); (4, 4 # 1)]%Z).
Example C20_ex_multi : (exists c, get_lr ex_multi 6 = Ok (1%Q, c)) /\ (exists c, get_lr ex_multi 5 = Ok (1 * (1 # 2), c)%Q).
Proof. split; eexists; reflexivity. Qed.
Example C20_ex_multi_hyps :
  recent_epochs (c_data ex_multi) 5 3 [2; 3; 4]%Z /\
  changes ex_multi "dev_score" [2; 3; 4]%Z [((2 - 2) / Qabs 2) / (1 / 1); ((4 - 2) / Qabs 4) / (1 / 1)]%Q.
Proof.
  split.
  - split; [repeat constructor; lia|]. split; [cbn; lia|]. split.
    + intros e [<-|[<-|[<-|[]]]]; split; (lia || cbn; tauto).
    + intros e' H1 H2 H3. cbn in H1, H3. split; [reflexivity|]. intros e [<-|[<-|[<-|[]]]]; lia.
  - assert (G : forall a b u v, scored ex_multi a "dev_score" u -> scored ex_multi b "dev_score" v -> ~ (v == 0)%Q ->
      dget (c_data ex_multi) b = Some (mk_data 1 [("dev_score", v)]) -> change_between ex_multi "dev_score" a b (((v - u) / Qabs v) / (1 / 1))).
    { intros a b u v Hu Hv Hz Hb. exists u, v. eexists. split; [exact Hu|]. split; [exact Hv|]. split; [exact Hb|]. split; [exact Hz|].
      left. split; [reflexivity|]. split; [reflexivity|]. split; [discriminate|reflexivity]. }
    constructor; [apply G; (reflexivity || discriminate)|]. constructor; [apply G; (reflexivity || discriminate)|]. constructor.
Qed.
Example C20_ex_names : exists c', set_epoch_error ex_multi 4 [("dev_error", PerOutput [("error:a", 1%Q); ("error:b:c", 2%Q)])] = Ok c' /\
  option_map (fun d => dkeys (d_error d)) (dget (c_data c') 4%Z) = Some ["dev_score"; "dev_error_a"; "dev_error_b:c"].
Proof. eexists. split; reflexivity. Qed.

(** C20, finding: the minimum is only checked after a decay. If the growth factor is below one, learning rates go below the minimum. *)
Theorem C20_minimum_with_growth_refuted :
  ~ (forall c ops c' epoch lr c'', (0 <= c_min c)%Q -> (c_min c <= c_default c)%Q -> run (init c []) ops = Ok c' -> get_lr c' epoch = Ok (lr, c'') -> (c_min c <= lr)%Q).
Proof.
  intros H.
  specialize (H (mk_control (NewbobRelative (-1 # 100)) 1 (3 # 4) None false 0 false (Factor 1) (Factor (1 # 2)) [])
    [SetError 1 [("dev_score", Value 2)]; SetError 2 [("dev_score", Value 1)]] _ 3%Z _ _ ltac:(discriminate) ltac:(discriminate) eq_refl eq_refl).
  vm_compute in H. now apply H.
Qed.
Print Assumptions C20_minimum_with_growth_refuted.

(** C20, finding: a "decay" makes the learning rate larger when the previous one (given by the user) is below the minimum. *)
Theorem C20_decay_never_raises_refuted :
  ~ (forall c rates ops c' epoch lr c'' prev q, c_decay c = Factor q -> (0 <= q <= 1)%Q -> c_growth c = Factor 1 -> (c_min c <= c_default c)%Q -> (forall e x, In (e, x) rates -> (0 <= x)%Q) ->
     run (init c rates) ops = Ok c' -> dget (c_data c') epoch = None -> previous_lr c' epoch prev -> get_lr c' epoch = Ok (lr, c'') -> (lr <= prev)%Q).
Proof.
  intros H. set (c := mk_control (NewbobRelative (-1 # 100)) 1 (1 # 10) None false 0 false (Factor (1 # 2)) (Factor 1) []).
  destruct (run (init c [(1, 1 # 100); (2, 1 # 100)]%Z) [SetError 1 [("dev_score", Value 1)]; SetError 2 [("dev_score", Value 2)]]) as [c'|] eqn:Er; [|vm_compute in Er; discriminate].
  vm_compute in Er. apply Ok_inj in Er. destruct (get_lr c' 3) as [[lr c'']|] eqn:Eg; [|subst c'; vm_compute in Eg; discriminate].
  assert (E : (lr <= 1 # 100)%Q).
  2:{ subst c'. vm_compute in Eg. injection Eg as <- _. now apply E. }
  apply (H c [(1, 1 # 100); (2, 1 # 100)]%Z [SetError 1 [("dev_score", Value 1)]; SetError 2 [("dev_score", Value 2)]] c' 3%Z lr c'' (1 # 100)%Q (1 # 2)%Q);
    [reflexivity|split; discriminate|reflexivity|discriminate|intros e x [E|[E|[]]]; injection E as _ <-; discriminate|subst c'; reflexivity|subst c'; reflexivity| |exact Eg]. subst c'.
  left. exists 2%Z. eexists. split; [|split; reflexivity]. split; [right; left; reflexivity|]. split; [lia|]. intros e' [<-|[<-|[]]] _; cbn; lia.
Qed.
Print Assumptions C20_decay_never_raises_refuted.

(** C20, finding: a score of exactly zero (say, a frame error rate) ends the training with a ZeroDivisionError. *)
Theorem C20_zero_score_refuted :
  ~ (forall c ops c' epoch, (exists t, c_kind c = NewbobRelative t) -> run (init c []) ops = Ok c' -> (1 <= epoch)%Z -> exists lr c'', get_lr c' epoch = Ok (lr, c'')).
Proof.
  intros H. destruct (H ex_newbob [SetError 1 [("dev_score", Value 1)]; SetError 2 [("dev_score", Value 0)]] _ 3%Z (ex_intro _ _ eq_refl) eq_refl ltac:(lia)) as (lr&c''&E). vm_compute in E. discriminate.
Qed.
Print Assumptions C20_zero_score_refuted.

(** C20, finding: a grow threshold above the decay threshold makes NewbobMultiEpoch fail with an AssertionError when the mean is between the two. *)
Theorem C20_thresholds_refuted :
  ~ (forall c ops c' epoch n i t g, c_kind c = NewbobMultiEpoch n i t g -> 1 <= n -> 1 <= i -> run (init c []) ops = Ok c' -> (1 <= epoch)%Z ->
     (forall e k v, scored c' e k v -> ~ (v == 0)%Q) -> exists lr c'', get_lr c' epoch = Ok (lr, c'')).
Proof.
  intros H. set (c := mk_control (NewbobMultiEpoch 5 1 (-1 # 100) (1 # 100)) 1 0 None false 0 false (Factor (1 # 2)) (Factor 1) []).
  destruct (H c [SetError 1 [("dev_score", Value 1)]; SetError 2 [("dev_score", Value 1)]] _ 3%Z 5 1 (-1 # 100)%Q (1 # 100)%Q eq_refl ltac:(lia) ltac:(lia) eq_refl ltac:(lia)) as (lr&c''&E); [|vm_compute in E; discriminate].
  intros e k v. unfold scored, error_key_value. set (c' := with_data _ _). destruct (Z.eq_dec e 1) as [->|H1]; [vm_compute; intros E; injection E as <- <-; discriminate|].
  destruct (Z.eq_dec e 2) as [->|H2]; [vm_compute; intros E; injection E as <- <-; discriminate|].
  replace (dget (c_data c') e) with (@None epoch_data); [discriminate|]. symmetry. apply dget_None. intros [E|[E|[]]]; cbn in E; congruence.
Qed.
Print Assumptions C20_thresholds_refuted.

(** C21: the last best epoch: it has the best score of the considered epochs (the first such epoch if there are several); that score beats the latest one by more than the given distance; and there is
    no answer only if no considered epoch beats the latest score like this. Considered are the epochs of the range with the same kind of score as the latest, not over the filter, the last [n] of them. *)
Theorem C21_best_epoch : forall c last first only_last filter_score n dist r,
  let first' := first_considered last first only_last in
  get_last_best_epoch c last first only_last filter_score n dist = Ok r ->
  match r with
  | Some ep =>
      exists key latest_epoch latest_score v,
        latest c first' last latest_epoch key latest_score /\
        candidate c first' last key filter_score ep v /\ among_last c first' last key filter_score n ep /\
        (v + dist < latest_score)%Q /\
        forall ep' v', candidate c first' last key filter_score ep' v' -> among_last c first' last key filter_score n ep' ->
          (v < v')%Q \/ (v == v')%Q /\ (ep <= ep')%Z
  | None =>
      forall key latest_epoch latest_score ep v,
        latest c first' last latest_epoch key latest_score ->
        candidate c first' last key filter_score ep v -> among_last c first' last key filter_score n ep -> (latest_score <= v + dist)%Q
  end.
Proof. exact best_spec. Qed.
Print Assumptions C21_best_epoch.

Definition ex_scores : control :=
  match run (init ex_newbob []) (map (fun ev => SetError (fst ev) [("dev_score", Value (snd ev))]) [(1, 5 # 1); (2, 2 # 1); (3, 3 # 1); (4, 2 # 1); (5, 4 # 1)]%Z) with Ok c => c | Err _ => ex_newbob end.
Example C21_ex :
  get_last_best_epoch ex_scores 5 1 None None (-1) 0 = Ok (Some 2%Z) /\
  get_last_best_epoch ex_scores 5 1 (Some 3%Z) None (-1) 0 = Ok (Some 4%Z) /\
  get_last_best_epoch ex_scores 5 1 None None 1 0 = Ok None /\
  get_last_best_epoch ex_scores 5 1 None None (-1) 2 = Ok None /\
  get_last_best_epoch ex_scores 4 1 None None (-1) 0 = Ok None.
Proof. vm_compute. repeat split; reflexivity. Qed.

(** C21, finding: the latest epoch is never the answer, even if its score is the best of all. *)
Theorem C21_latest_can_be_best_refuted :
  ~ (forall c last first, (first <= last)%Z -> (forall ep, (first <= ep <= last)%Z -> exists v, scored c ep "dev_score" v) ->
     exists ep v, get_last_best_epoch c last first None None (-1) 0 = Ok (Some ep) /\ scored c ep "dev_score" v /\
       forall ep' v', (first <= ep' <= last)%Z -> scored c ep' "dev_score" v' -> (v <= v')%Q).
Proof.
  intros H. destruct (H ex_scores 2%Z 1%Z ltac:(lia)) as (ep&v&E&_); [|vm_compute in E; discriminate].
  intros ep Hep. assert (Hc : ep = 1%Z \/ ep = 2%Z) by lia. destruct Hc as [->| ->]; eexists; vm_compute; reflexivity.
Qed.
Print Assumptions C21_latest_can_be_best_refuted.
