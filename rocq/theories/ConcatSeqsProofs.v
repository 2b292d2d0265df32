From Coq Require Import String.
From Verif Require Import Base ListLemmas PyDict ConcatSeqsModel ConcatSeqsSpec.
Local Open Scope string_scope. Local Open Scope nat_scope. Local Open Scope list_scope.
Local Notation length := List.length.
Local Notation concat := List.concat.

(** ** tiling *)
Lemma last_seq n : forall a, 0 < n -> last (seq a n) 0 = a + n - 1.
Proof. induction n as [|n IH]; intros a H; [lia|]. rewrite seq_S. rewrite last_last. lia. Qed.
Lemma sub_idxs_loop_spec seq_list : Forall (fun t => t <> []) seq_list -> forall o, exists l, sub_idxs_loop seq_list o = (l, o + length (concat seq_list)) /\ length l = length seq_list /\ concat l = seq o (length (concat seq_list)) /\
  forall k tags, nth_error seq_list k = Some tags -> nth_error l k = Some (seq (o + length (concat (firstn k seq_list))) (length tags)).
Proof.
  induction 1 as [|tags rest Ht Hr IH]; intros o; cbn [sub_idxs_loop].
  - exists []. cbn. split; [f_equal; lia|]. repeat split. intros [|k] t; discriminate.
  - assert (Hlen : 0 < length tags) by (destruct tags; [contradiction|cbn; lia]). rewrite last_seq by exact Hlen. replace (o + length tags - 1 + 1) with (o + length tags) by lia. destruct (IH (o + length tags)) as (l&->&H1&H2&H3). exists (seq o (length tags) :: l). cbn [concat]. rewrite app_length. split; [f_equal; lia|]. split; [cbn [length]; lia|]. split; [rewrite seq_app, H2; reflexivity|].
    intros [|k] t E; cbn [nth_error firstn concat] in *; [injection E as ->; cbn; do 2 f_equal; lia|]. rewrite app_length. rewrite (H3 k t E). do 2 f_equal. lia.
Qed.
Lemma cur_sub_ok seq_list : Forall (fun t => t <> []) seq_list -> exists l, cur_sub_seq_idxs seq_list = Ok l /\ length l = length seq_list /\ concat l = seq 0 (length (concat seq_list)) /\
  forall k tags, nth_error seq_list k = Some tags -> nth_error l k = Some (seq (length (concat (firstn k seq_list))) (length tags)).
Proof.
  intros H. unfold cur_sub_seq_idxs, sub_seq_list. destruct (sub_idxs_loop_spec seq_list H 0) as (l&->&H1&H2&H3). cbn [Nat.add]. rewrite H1, !Nat.eqb_refl. cbn [andb assert_ bind]. exists l. auto.
Qed.

(** ** pieces *)
Lemma last_frames_spec d n : last_frames d n = if length d =? 0 then [] else repeat (last d 0%Z) n.
Proof.
  unfold last_frames. destruct d as [|x d] using rev_ind; [cbn; induction n; [reflexivity|exact IHn]|]. clear IHd. rewrite app_length. cbn [length]. destruct (Nat.eqb_spec (length d + 1) 0); [lia|]. rewrite last_last. replace (length d + 1 - 1) with (length d) by lia. rewrite skipn_app, skipn_all, Nat.sub_diag. cbn [skipn app]. induction n as [|? IH]; [reflexivity|]. cbn [repeat concat app]. now rewrite IH.
Qed.
Lemma repeats_last_intro d n : d <> [] -> repeats_last d (d ++ last_frames d n).
Proof. intros H. exists n. rewrite last_frames_spec. destruct d; [contradiction|]. cbn [length Nat.eqb]. split; [reflexivity|discriminate]. Qed.
Lemma last_frames_len d n : d <> [] -> length (last_frames d n) = n.
Proof. intros H. rewrite last_frames_spec. destruct d; [contradiction|]. cbn [length Nat.eqb]. apply repeat_length. Qed.
Lemma postfix_spec c key d out : step_postfix c key d = Ok out <-> match dget (remove_postfix c) key with Some p => d = out ++ [p] | None => out = d end.
Proof.
  unfold step_postfix. destruct (dget (remove_postfix c) key) as [p|]; [|split; [intros [= ->]; reflexivity|intros ->; reflexivity]]. split.
  - destruct (rev d) as [|x front] eqn:E; [discriminate|]. destruct (Z.eqb_spec x p) as [-> |]; [|discriminate]. intros [= <-]. rewrite <- (rev_involutive d), E. reflexivity.
  - intros ->. rewrite rev_app_distr. cbn [rev app]. rewrite Z.eqb_refl. cbn [assert_ bind]. now rewrite rev_involutive.
Qed.
Lemma repeat_spec c key d out : step_repeat c key d = Ok out -> match dget (repeat_multiple c) key with
    | Some m => 0 < m /\ repeats_last d out /\ length out mod m = 0 /\ length out < length d + m
    | None => out = d end.
Proof.
  unfold step_repeat. destruct (dget (repeat_multiple c) key) as [[|m]|]; [discriminate| |intros [= ->]; reflexivity]. set (m' := S m). assert (Hm : 0 < m') by (unfold m'; lia). clearbody m'. destruct (Nat.eqb_spec (length d mod m') 0) as [E|E].
  - intros [= <-]. split; [exact Hm|]. split; [exists 0; split; [cbn; now rewrite app_nil_r|auto]|]. split; [exact E|lia].
  - destruct (Nat.eqb_spec (length (d ++ last_frames d (m' - length d mod m')) mod m') 0) as [E'|]; [|discriminate]. cbn [assert_ bind]. intros [= <-]. assert (Hd : d <> []) by (intros ->; cbn [length] in E; rewrite Nat.mod_0_l in E by lia; lia). split; [exact Hm|]. split; [now apply repeats_last_intro|]. split; [exact E'|]. rewrite app_length, last_frames_len by exact Hd. lia.
Qed.
Lemma mod_fill a m : 0 < m -> a mod m <> 0 -> (a + (m - a mod m)) mod m = 0.
Proof. intros Hm H. pose proof (Nat.mod_upper_bound a m). pose proof (Nat.div_mod a m). apply Nat.mod_divide; [lia|]. exists (a / m + 1). nia. Qed.
Lemma repeat_ok c key d : (forall m, dget (repeat_multiple c) key = Some m -> 0 < m) -> exists out, step_repeat c key d = Ok out /\ (d <> [] -> out <> []).
Proof.
  intros H. unfold step_repeat. destruct (dget (repeat_multiple c) key) as [[|m]|] eqn:Ek; [specialize (H 0 eq_refl); lia| |exists d; auto]. set (m' := S m) in *. assert (Hm : 0 < m') by (unfold m'; lia). clearbody m'. destruct (Nat.eqb_spec (length d mod m') 0) as [E|E]; [exists d; auto|].
  assert (Hd : d <> []) by (intros ->; cbn [length] in E; rewrite Nat.mod_0_l in E by lia; lia). rewrite app_length, last_frames_len, mod_fill by (assumption || lia). cbn [Nat.eqb assert_ bind]. eexists. split; [reflexivity|]. intros _ E0. apply app_eq_nil in E0. tauto.
Qed.
Lemma pad_spec c sub key d out : step_pad c sub key d = Ok out -> match dget (pad_narrow c) key with
    | Some (tk, m) => exists target, dget sub tk = Some target /\ length out = length target * m /\ ((exists cut, d = out ++ cut) \/ repeats_last d out)
    | None => out = d end.
Proof.
  unfold step_pad. destruct (dget (pad_narrow c) key) as [[tk m]|]; [|intros [= ->]; reflexivity]. destruct (dget sub tk) as [target|]; [|discriminate]. set (n := length target * m). destruct (Nat.ltb_spec n (length d)).
  - rewrite firstn_length, Nat.min_l, Nat.eqb_refl by lia. cbn [assert_ bind]. intros [= <-]. exists target. split; [reflexivity|]. split; [rewrite firstn_length; unfold n in *; lia|]. left. exists (skipn n d). now rewrite firstn_skipn.
  - destruct (Nat.ltb_spec (length d) n).
    + destruct (Nat.eqb_spec (length (d ++ last_frames d (n - length d))) n) as [E|]; [|discriminate]. cbn [assert_ bind]. intros [= <-]. exists target. split; [reflexivity|]. split; [exact E|]. right. destruct d as [|x d]; [|now apply repeats_last_intro]. rewrite last_frames_spec in E. cbn in E. cbn [length] in *. lia.
    + destruct (Nat.eqb_spec (length d) n); [|discriminate]. cbn [assert_ bind]. intros [= <-]. exists target. split; [reflexivity|]. split; [assumption|]. left. exists []. now rewrite app_nil_r.
Qed.
Lemma pad_ok c sub key d : (forall tk m, dget (pad_narrow c) key = Some (tk, m) -> exists target, dget sub tk = Some target /\ (d <> [] \/ length target * m = 0)) -> exists out, step_pad c sub key d = Ok out.
Proof.
  intros H. unfold step_pad. destruct (dget (pad_narrow c) key) as [[tk m]|]; [|eauto]. destruct (H tk m eq_refl) as (target&->&Ht). set (n := length target * m) in *. destruct (Nat.ltb_spec n (length d)).
  - rewrite firstn_length, Nat.min_l, Nat.eqb_refl by lia. cbn [assert_ bind]. eauto.
  - destruct (Nat.ltb_spec (length d) n).
    + rewrite app_length, last_frames_len by (destruct Ht; [assumption|lia]). replace (length d + (n - length d)) with n by lia. rewrite Nat.eqb_refl. cbn. eauto.
    + replace (length d) with n by lia. rewrite Nat.eqb_refl. cbn. eauto.
Qed.
Lemma piece_inner_sound c sub key out : piece c sub false key = Ok out -> exists data, dget sub key = Some data /\ inner_piece c sub key data out.
Proof.
  unfold piece. destruct (dget sub key) as [data|]; [|discriminate]. intros H. apply bind_Ok in H. destruct H as (d1&H1&H). apply bind_Ok in H. destruct H as (d2&H2&H3). exists data. split; [reflexivity|]. exists d1, d2. apply postfix_spec in H1. apply repeat_spec in H2. apply pad_spec in H3. auto.
Qed.
Lemma piece_inner_ok c sub key : applicable c sub key -> exists out, piece c sub false key = Ok out.
Proof.
  intros (data&E&H1&H2&H3). unfold piece. rewrite E.
  assert (Hp : exists d1, step_postfix c key data = Ok d1 /\ (match dget (remove_postfix c) key with Some _ => length data = S (length d1) | None => d1 = data end)).
  { destruct (dget (remove_postfix c) key) as [p|] eqn:Ep. - destruct (H1 p eq_refl) as (d&->). exists d. split; [apply postfix_spec; now rewrite Ep|rewrite app_length; cbn; lia]. - exists data. split; [apply postfix_spec; now rewrite Ep|reflexivity]. }
  destruct Hp as (d1&->&Hd1). cbn [bind]. destruct (repeat_ok c key d1 H2) as (d2&->&Hd2). cbn [bind]. apply pad_ok. intros tk m Ek. destruct (H3 tk m Ek) as (target&Et&Ht). exists target. split; [exact Et|]. destruct Ht as [[Ha Hb]|[Ht|Ht]]; [left|left|now right]; apply Hd2.
  - rewrite Hb in Hd1. now subst d1.
  - intros ->. destruct (dget (remove_postfix c) key); [cbn in Hd1; lia|subst data; cbn in Ht; lia].
Qed.

(** ** one sequence *)
Lemma mapM_app {A B} (f : A -> res B) a b : mapM f (a ++ b) = let* x := mapM f a in let* y := mapM f b in Ok (x ++ y).
Proof. induction a as [|u a IH]; cbn [app mapM bind]; [destruct (mapM f b); reflexivity|]. rewrite IH. destruct (f u); [|reflexivity]. cbn [bind]. destruct (mapM f a); [|reflexivity]. cbn [bind]. destruct (mapM f b); reflexivity. Qed.
Lemma load_subs subs : forall inner o, (forall i x, nth_error subs i = Some x -> nth_error inner (o + i) = Some x) ->
  mapM (fun '(i, t) => let* f := load_sub inner i t in Ok (i, f)) (combine (seq o (length subs)) (map fst subs)) = Ok (combine (seq o (length subs)) (map snd subs)).
Proof.
  induction subs as [|[t f] subs IH]; intros inner o H; [reflexivity|]. cbn [length seq map combine mapM]. unfold load_sub at 1. specialize (H 0 (t, f) eq_refl) as H0. rewrite Nat.add_0_r in H0. rewrite H0. cbn [fst snd]. rewrite String.eqb_refl. cbn [assert_ bind]. rewrite (IH inner (S o)); [reflexivity|]. intros i x Hi. replace (S o + i) with (o + S i) by lia. now apply H.
Qed.
Lemma pieces_flags c key lst fs : forall o, mapM (fun '(i, f) => piece c f (i =? o + length fs) key) (combine (seq o (length (fs ++ [lst]))) (fs ++ [lst])) = let* ps := mapM (fun f => piece c f false key) fs in let* l := piece c lst true key in Ok (ps ++ [l]).
Proof.
  induction fs as [|f fs IH]; intros o; cbn [app length seq combine mapM].
  - rewrite Nat.add_0_r, Nat.eqb_refl. cbn [bind]. destruct (piece c lst true key); reflexivity.
  - destruct (Nat.eqb_spec o (o + S (length fs))); [lia|]. destruct (piece c f false key); [|reflexivity]. cbn [bind]. replace (o + S (length fs)) with (S o + length fs) by lia. rewrite IH. destruct (mapM (fun f => piece c f false key) fs); [|reflexivity]. cbn [bind]. destruct (piece c lst true key); reflexivity.
Qed.
Lemma collect_unfold c keys inner seq_list idxs k tags subs : Forall (fun t => t <> []) seq_list -> cur_sub_seq_idxs seq_list = Ok idxs -> nth_error seq_list k = Some tags -> map fst inner = concat seq_list ->
  subs = pyslice inner (length (concat (firstn k seq_list))) (length (concat (firstn k seq_list)) + length tags) ->
  map fst subs = tags /\ exists front lst, map snd subs = front ++ [lst] /\
  collect_single_seq c keys inner seq_list idxs k = let* fs := mapM (fun key => let* ps := (let* ps := mapM (fun f => piece c f false key) front in let* l := piece c lst true key in Ok (ps ++ [l])) in Ok (key, concat ps)) keys in Ok (Some fs).
Proof.
  intros Hne Hi Ht Hin Hs. destruct (cur_sub_ok seq_list Hne) as (l&E&H1&_&H3). rewrite Hi in E. apply Ok_inj in E. subst l. specialize (H3 k tags Ht). set (o := length (concat (firstn k seq_list))) in *.
  assert (Hsplit : concat seq_list = concat (firstn k seq_list) ++ tags ++ concat (skipn (S k) seq_list)).
  { rewrite <- (firstn_skipn k seq_list) at 1. rewrite concat_app. f_equal. clear - Ht. revert seq_list Ht. induction k as [|k IH]; intros [|x l] E; try discriminate; [injection E as ->; reflexivity|]. cbn [skipn]. now apply IH. }
  assert (Hlen : o + length tags <= length inner) by (rewrite <- (map_length fst inner), Hin, Hsplit, !app_length; fold o; lia).
  assert (Hsl : length subs = length tags) by (rewrite Hs, pyslice_length by lia; lia).
  assert (Hft : map fst subs = tags).
  { rewrite Hs. unfold pyslice. replace (o + length tags - o) with (length tags) by lia. rewrite <- firstn_map, <- skipn_map, Hin, Hsplit. rewrite skipn_app. fold o. rewrite (skipn_all2 (concat (firstn k seq_list))) by (unfold o; lia). unfold o. rewrite Nat.sub_diag. cbn [skipn app]. rewrite firstn_app, firstn_all, Nat.sub_diag. cbn [firstn]. now rewrite app_nil_r. }
  split; [exact Hft|]. assert (Htn : tags <> []) by (rewrite Forall_forall in Hne; apply Hne; eapply nth_error_In; exact Ht).
  assert (Hex : exists front lst, map snd subs = front ++ [lst]). { destruct (@exists_last _ (map snd subs)) as (f&x&->); [|eauto]. intros E. apply (f_equal (@length _)) in E. rewrite map_length, Hsl in E. destruct tags; [contradiction|discriminate]. }
  destruct Hex as (front&lst&Hfl). exists front, lst. split; [exact Hfl|]. unfold collect_single_seq. rewrite Ht, H3. rewrite seq_length, Nat.eqb_refl. cbn [assert_ bind]. rewrite <- Hft at 2. rewrite <- Hsl at 1. rewrite load_subs.
  2:{ intros i x Hx. rewrite Hs in Hx. unfold pyslice in Hx. assert (Hil : i < length tags). { rewrite <- Hsl. rewrite Hs. unfold pyslice. apply nth_error_Some. congruence. } rewrite nth_error_firstn', nth_error_skipn' in Hx. destruct (i <? o + length tags - o); [exact Hx|discriminate]. }
  cbn [bind]. assert (Hmap : map snd subs = front ++ [lst]) by exact Hfl. assert (Hl2 : length (front ++ [lst]) = length tags) by (rewrite <- Hmap, map_length; exact Hsl).
  match goal with |- bind ?a _ = bind ?b _ => assert (Hab : a = b); [|now rewrite Hab] end. clear - Hmap Hl2 Hsl.
  induction keys as [|key keys IH]; [reflexivity|]. cbn [mapM]. rewrite IH. rewrite Hmap, Hsl, <- Hl2. replace (last (seq o (length (front ++ [lst]))) 0) with (o + length front) by (rewrite last_seq; rewrite app_length; cbn; lia). rewrite pieces_flags. reflexivity.
Qed.

Lemma pieces_sound c key front : forall ps, mapM (fun f => piece c f false key) front = Ok ps -> Forall2 (fun sub p => exists data, dget sub key = Some data /\ inner_piece c sub key data p) front ps.
Proof. intros ps H. apply mapM_Ok_Forall2 in H. eapply Forall2_impl'; [|exact H]. intros a b. apply piece_inner_sound. Qed.
Lemma Forall2_fst {A} {B} (R : A -> A * B -> Prop) l l' : (forall a b, R a b -> fst b = a) -> Forall2 R l l' -> map fst l' = l.
Proof. intros H. induction 1; cbn; [reflexivity|]. f_equal; [now apply H|assumption]. Qed.
Lemma Forall2_In_l {A B} (R : A -> B -> Prop) l l' x : Forall2 R l l' -> In x l -> exists y, In y l' /\ R x y.
Proof. induction 1; intros []; [subst; eexists; split; [now left|assumption]|]. destruct IHForall2 as (z&?&?); [assumption|]. exists z. split; [now right|assumption]. Qed.

Lemma pyslice_parts {A} (l : list A) a b : a <= b <= length l -> l = firstn a l ++ pyslice l a b ++ skipn b l.
Proof.
  intros H. unfold pyslice. rewrite <- (firstn_skipn a l) at 1. f_equal. rewrite <- (firstn_skipn (b - a) (skipn a l)) at 1. f_equal. rewrite skipn_skipn'. f_equal. lia.
Qed.
Lemma firstn_tags_len (seq_list : list (list string)) k tags : nth_error seq_list k = Some tags -> length (concat (firstn k seq_list)) + length tags <= length (concat seq_list).
Proof.
  revert seq_list. induction k as [|k IH]; intros [|x l] E; try discriminate; cbn [nth_error firstn concat] in *.
  - injection E as ->. rewrite app_length. cbn. lia.
  - rewrite !app_length. specialize (IH l E). lia.
Qed.
Lemma collect_sound c keys inner seq_list idxs k tags r : Forall (fun t => t <> []) seq_list -> map fst inner = concat seq_list -> cur_sub_seq_idxs seq_list = Ok idxs -> nth_error seq_list k = Some tags -> collect_single_seq c keys inner seq_list idxs k = Ok r ->
  exists before subs after fs, inner = before ++ subs ++ after /\ length before = length (concat (firstn k seq_list)) /\ map fst subs = tags /\ r = Some fs /\ map fst fs = keys /\ forall key out, In (key, out) fs -> joined c key (map snd subs) out.
Proof.
  intros Hne Hin Hi Ht Hc. set (o := length (concat (firstn k seq_list))). destruct (collect_unfold c keys inner seq_list idxs k tags (pyslice inner o (o + length tags)) Hne Hi Ht Hin eq_refl) as (Hft&front&lst&Hfl&E). rewrite E in Hc. clear E. apply bind_Ok in Hc. destruct Hc as (fs&Hfs&Hr). injection Hr as <-.
  assert (Hlen : o + length tags <= length inner) by (rewrite <- (map_length fst inner), Hin; now apply firstn_tags_len).
  exists (firstn o inner), (pyslice inner o (o + length tags)), (skipn (o + length tags) inner), fs. split; [apply pyslice_parts; lia|]. split; [rewrite firstn_length; lia|]. split; [exact Hft|]. split; [reflexivity|].
  apply mapM_Ok_Forall2 in Hfs. rewrite Hfl. split.
  - eapply Forall2_fst; [|exact Hfs]. intros a b H. cbn beta in H. apply bind_Ok in H. destruct H as (ps&_&H). now injection H as <-.
  - clear - Hfs. induction Hfs as [|key [key' out'] keys fs H Hfs IH]; intros key0 out []; [|now apply IH]. injection H0 as -> ->. apply bind_Ok in H. destruct H as (ps&H&Ho). injection Ho as -> <-. apply bind_Ok in H. destruct H as (fp&Hfp&H). apply bind_Ok in H. destruct H as (lp&Hlp&H). injection H as <-. exists (fp ++ [lp]), front, lst. split; [reflexivity|]. split; [reflexivity|]. exists fp, lp. split; [reflexivity|]. split; [|now apply pieces_sound]. unfold piece in Hlp. destruct (dget lst key0); [now injection Hlp as ->|discriminate].
Qed.
Lemma collect_complete c keys inner seq_list idxs k tags subs front lst before after : Forall (fun t => t <> []) seq_list -> map fst inner = concat seq_list -> cur_sub_seq_idxs seq_list = Ok idxs -> nth_error seq_list k = Some tags ->
  inner = before ++ subs ++ after -> length before = length (concat (firstn k seq_list)) -> length subs = length tags -> map snd subs = front ++ [lst] ->
  (forall key, In key keys -> dhas lst key = true /\ Forall (fun sub => applicable c sub key) front) ->
  exists fs, collect_single_seq c keys inner seq_list idxs k = Ok (Some fs).
Proof.
  intros Hne Hin Hi Ht Hsplit Hb Hsl Hfl Hk. destruct (collect_unfold c keys inner seq_list idxs k tags subs Hne Hi Ht Hin) as (Hft&front'&lst'&Hfl'&->).
  { rewrite <- Hb, Hsplit. unfold pyslice. rewrite skipn_app, skipn_all, Nat.sub_diag. cbn [skipn app]. replace (length before + length tags - length before) with (length subs) by lia. rewrite firstn_app, firstn_all, Nat.sub_diag. cbn [firstn]. now rewrite app_nil_r. }
  pose proof (eq_trans (eq_sym Hfl) Hfl') as Hff. apply app_inj_tail in Hff. destruct Hff as [<- <-].
  match goal with |- exists fs, bind ?m _ = _ => assert (Hm : exists fs, m = Ok fs); [|destruct Hm as (fs&->); exists fs; reflexivity] end.
  clear - Hk. induction keys as [|key keys IH]; [exists []; reflexivity|]. cbn [mapM]. destruct IH as (fs&->); [intros; apply Hk; now right|]. destruct (Hk key (or_introl eq_refl)) as (Hl&Hf).
  assert (Hps : exists ps, mapM (fun f => piece c f false key) front = Ok ps). { clear - Hf. induction Hf as [|f front Hf _ (ps&IH)]; [exists []; reflexivity|]. cbn [mapM]. destruct (piece_inner_ok _ _ _ Hf) as (p&->). rewrite IH. eexists. reflexivity. }
  destruct Hps as (ps&->). unfold dhas in Hl. unfold piece. destruct (dget lst key); [|discriminate]. cbn [bind]. eexists. reflexivity.
Qed.

(** ** lengths *)
Lemma ceildiv_add_mult a b m : 0 < m -> a mod m = 0 -> ceildiv (a + b) m = ceildiv a m + ceildiv b m.
Proof.
  intros Hm H. unfold ceildiv. apply Nat.mod_divide in H; [|lia]. destruct H as (q&->). replace (q * m + b + m - 1) with (b + m - 1 + q * m) by lia. rewrite Nat.div_add by lia. replace (q * m + m - 1) with (m - 1 + q * m) by lia. rewrite Nat.div_add by lia. rewrite (Nat.div_small (m - 1) m) by lia. lia.
Qed.
Lemma ceildiv_up a r m : 0 < m -> a <= r < a + m -> r mod m = 0 -> ceildiv r m = ceildiv a m.
Proof.
  intros Hm H E. unfold ceildiv. apply Nat.mod_divide in E; [|lia]. destruct E as (q&->). replace (q * m + m - 1) with (m - 1 + q * m) by lia. rewrite Nat.div_add, (Nat.div_small (m - 1)) by lia. cbn. apply Nat.div_unique with (a + m - 1 - m * q); nia.
Qed.
Lemma repeat_total c key subs out m : joined c key subs out -> dget (remove_postfix c) key = None -> dget (pad_narrow c) key = None -> dget (repeat_multiple c) key = Some m -> subs <> [] ->
  0 < m \/ length subs = 1 -> ceildiv (length out) m = list_sum (map (fun sub => match dget sub key with Some d => ceildiv (length d) m | None => 0 end) subs).
Proof.
  intros (pieces&front&lst&->&->&fp&lp&->&Hl&HF) Hp Hn Hr _ Hm. rewrite concat_app, map_app, list_sum_app. cbn [concat map list_sum fold_right]. rewrite app_nil_r, Hl, Nat.add_0_r.
  destruct front as [|f0 front0]; [inversion HF; subst; reflexivity|]. assert (Hm' : 0 < m) by (destruct Hm as [Hm|Hm]; [exact Hm|cbn in Hm; rewrite app_length in Hm; cbn in Hm; lia]). clear Hm. revert HF. generalize (f0 :: front0). intros front HF. clear f0 front0. induction HF as [|sub p front fp (data&Hd&d1&d2&H1&H2&H3) HF IH]; [reflexivity|]. cbn [concat map list_sum fold_right]. rewrite <- app_assoc, app_length. rewrite Hp in H1. rewrite Hr in H2. rewrite Hn in H3. subst. destruct H2 as (_&(n&Hrep&_)&Hmod&Hlt). rewrite ceildiv_add_mult by assumption. rewrite IH. rewrite Hd. rewrite (ceildiv_up (length data)); try assumption; [unfold list_sum; lia|]. split; [|exact Hlt]. rewrite Hrep, app_length. lia.
Qed.
(** integer ceiling division of [a - P] by [F] *)
Lemma pad_total c key subs out tk F P : joined c key subs out -> dget (remove_postfix c) key = None -> dget (repeat_multiple c) key = None -> dget (pad_narrow c) key = Some (tk, F) -> 0 < F ->
  (forall sub, In sub subs -> exists d t, dget sub key = Some d /\ dget sub tk = Some t /\ Z.of_nat (length t) = (- ((P - Z.of_nat (length d)) / Z.of_nat F))%Z) ->
  Z.of_nat (list_sum (map (fun sub => match dget sub tk with Some d => length d | None => 0 end) subs)) = (- ((P - Z.of_nat (length out)) / Z.of_nat F))%Z.
Proof.
  intros (pieces&front&lst&->&->&fp&lp&->&Hl&HF) Hp Hr Hn HF0 Hsub. rewrite concat_app, map_app, list_sum_app. cbn [concat map list_sum fold_right]. rewrite app_nil_r.
  destruct (Hsub lst) as (d&t&Ed&Et&Hlen); [apply in_or_app; right; now left|]. rewrite Hl in Ed. injection Ed as <-. rewrite Et, Nat.add_0_r. assert (HZ : (Z.of_nat F > 0)%Z) by lia. induction HF as [|sub p front fp (data&Hd&d1&d2&H1&H2&H3) HF IH]; [cbn; exact Hlen|].
  cbn [concat map list_sum fold_right]. rewrite <- app_assoc, app_length. rewrite Hp in H1. rewrite Hr in H2. rewrite Hn in H3. subst. destruct H3 as (target&Ht&Hlp&_). rewrite Ht. rewrite Hlp.
  assert (IH' := IH (fun s Hs => Hsub s (or_intror Hs))). unfold list_sum in IH'. set (S0 := fold_right _ _ _) in *. rewrite !Nat2Z.inj_add, Nat2Z.inj_mul. rewrite Nat2Z.inj_add in IH'. replace (P - (Z.of_nat (length target) * Z.of_nat F + Z.of_nat (length (concat fp ++ lp))))%Z with ((P - Z.of_nat (length (concat fp ++ lp))) + (- Z.of_nat (length target)) * Z.of_nat F)%Z by lia. rewrite Z.div_add by lia. lia.
Qed.
