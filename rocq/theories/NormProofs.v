(** Proofs about normalization and label smoothing. *)
From Coq Require Import QArith Qcanon Lqa.
From Verif Require Import Base ListLemmas ConvModel ConvSpec ConvProofs AttnProofs NormModel NormSpec.
Local Open Scope nat_scope.

Lemma qnat_S n : qnat (S n) = (1 + qnat n)%Qc.
Proof. unfold qnat. apply Qc_is_canon. rewrite Nat2Z.inj_succ. unfold Z.succ. cbn [this Q2Qc Qcplus]. rewrite !Qred_correct, inject_Z_plus. ring. Qed.
Lemma qnat_0 : qnat 0 = 0%Qc. Proof. reflexivity. Qed.
Lemma qnat_1 : qnat 1 = 1%Qc. Proof. reflexivity. Qed.
Lemma qnat_add a b : qnat (a + b) = (qnat a + qnat b)%Qc.
Proof. induction a as [|a IH]; cbn [Nat.add]; [rewrite qnat_0; ring|]. rewrite !qnat_S, IH. ring. Qed.
Lemma qnat_mul a b : qnat (a * b) = (qnat a * qnat b)%Qc.
Proof. induction a as [|a IH]; cbn [Nat.mul]; [rewrite qnat_0; ring|]. rewrite qnat_add, IH, qnat_S. ring. Qed.
Lemma qnat_pos n : 0 < n -> (0 < qnat n)%Qc.
Proof.
  induction n as [|n IH]; [lia|]. intros _. rewrite qnat_S. destruct n; [reflexivity|]. specialize (IH ltac:(lia)).
  replace 0%Qc with (0 + 0)%Qc by ring. apply Qclt_le_trans with (1 + 0)%Qc; [reflexivity|]. apply Qcplus_le_compat; [apply Qcle_refl|now apply Qclt_le_weak].
Qed.
Lemma qnat_neq n : n <> 0 -> qnat n <> 0%Qc.
Proof. intros H E. assert (P := qnat_pos n ltac:(lia)). rewrite E in P. now apply Qclt_not_eq in P. Qed.

Lemma qsum_app l1 l2 : qsum (l1 ++ l2) = (qsum l1 + qsum l2)%Qc.
Proof. induction l1 as [|x l1 IH]; [cbn [app]; unfold qsum at 2; cbn [fold_right]; ring|]. cbn [app]. unfold qsum in *. cbn [fold_right]. rewrite IH. ring. Qed.
Lemma qsum_cons x l : qsum (x :: l) = (x + qsum l)%Qc. Proof. reflexivity. Qed.
Lemma qsum_zeros k : qsum (repeat 0%Qc k) = 0%Qc.
Proof. induction k; [easy|]. cbn [repeat]. unfold qsum in *. cbn [fold_right]. rewrite IHk. ring. Qed.
Lemma qsum_affine a b l : qsum (map (fun x => (x * a + b)%Qc) l) = (qsum l * a + qnat (length l) * b)%Qc.
Proof. induction l as [|x l IH]; cbn [map length]; [unfold qsum; cbn [fold_right]; rewrite qnat_0; ring|]. rewrite !qsum_cons, IH, qnat_S. ring. Qed.
Lemma qsum_scale a l : qsum (map (fun x => (x * a)%Qc) l) = (qsum l * a)%Qc.
Proof. induction l as [|x l IH]; cbn [map]; [unfold qsum; cbn [fold_right]; ring|]. rewrite !qsum_cons, IH. ring. Qed.
Lemma qsum_ext {A} (f g : A -> Qc) l : (forall x, In x l -> f x = g x) -> qsum (map f l) = qsum (map g l).
Proof. intros H. f_equal. now apply map_ext_in. Qed.

(** * the mean over a padded batch *)
Lemma masked_sum xs rows lens' : Forall2 (fun x row => (exists junk, row = x ++ junk) /\ length row = lens') xs rows ->
  qsum (concat (map (fun nr => masked 0%Qc (fst nr) (snd nr)) (combine (map (@length Qc) xs) rows))) = qsum (concat xs).
Proof.
  induction 1 as [|x row xs rows [(junk & ->) _] H IH]; [reflexivity|]. cbn [map combine fst snd concat]. rewrite masked_app, !qsum_app, qsum_zeros, IH. ring.
Qed.
Lemma concat_length {A} (xs : list (list A)) : length (concat xs) = list_sum (map (@length A) xs).
Proof. induction xs as [|x xs IH]; cbn; [easy|]. rewrite app_length. now rewrite IH. Qed.
Lemma sum_max lens : list_sum lens <= length lens * list_max lens.
Proof.
  induction lens as [|n lens IH]; [easy|]. cbn [length]. change (list_sum (n :: lens)) with (n + list_sum lens). change (list_max (n :: lens)) with (Nat.max n (list_max lens)). nia.
Qed.
Lemma reduce_mean_masked xs lens rows : padded xs lens rows -> concat xs <> [] -> reduce_mean true true lens rows = Some (mean (concat xs)).
Proof.
  intros [HL H] Hne. unfold reduce_mean, mean. cbn [andb]. rewrite concat_length, <- HL.
  assert (Hn : list_sum lens <> 0) by (rewrite HL, <- concat_length; destruct (concat xs); cbn; [easy|lia]).
  destruct (Nat.eqb_spec (list_sum lens) 0); [easy|]. rewrite HL at 1. rewrite (masked_sum _ _ _ H). f_equal.
  assert (length lens * dim_value lens <> 0) by (rewrite list_max_dim_value; pose proof (sum_max lens); lia).
  field. split; now apply qnat_neq.
Qed.
Lemma reduce_mean_plain (xs : list (list Qc)) lens use_mask : lens = map (@length Qc) xs -> Forall (fun x => length x = list_max lens) xs -> concat xs <> [] ->
  reduce_mean false use_mask lens xs = Some (mean (concat xs)).
Proof.
  intros HL H Hne. unfold reduce_mean, mean. cbn [andb].
  assert (E : length lens * dim_value lens = length (concat xs)).
  { rewrite list_max_dim_value, HL, concat_length, map_length. rewrite HL in H. set (M := list_max (map (@length Qc) xs)) in *. clearbody M. clear HL Hne.
    induction H as [|x xs Hx H IH]; [easy|]. cbn [length map]. change (list_sum (length x :: map (@length Qc) xs)) with (length x + list_sum (map (@length Qc) xs)). rewrite <- IH. lia. }
  rewrite E. destruct (Nat.eqb_spec (length (concat xs)) 0) as [E0|]; [destruct (concat xs); easy|]. reflexivity.
Qed.

Lemma map_concat_ne (f : Qc -> Qc) (xs : list (list Qc)) : concat xs <> [] -> concat (map (map f) xs) <> [].
Proof. rewrite <- concat_map. destruct (concat xs); easy. Qed.
Lemma moments_masked xs lens rows c : padded xs lens rows -> concat xs <> [] -> qnat (length (concat xs)) <> c ->
  moments true true c lens rows =
    Some (mean (concat xs), (qsum (deviations (concat xs)) / (qnat (length (concat xs)) - c))%Qc).
Proof.
  intros H Hne Hc. unfold moments. rewrite (reduce_mean_masked xs) by easy.
  rewrite (reduce_mean_masked (map (map (fun x => square (x - mean (concat xs))%Qc)) xs)); [|now apply padded_map_frames|now apply map_concat_ne].
  rewrite <- concat_map. fold (deviations (concat xs)).
  assert (EM : mean (deviations (concat xs)) = (qsum (deviations (concat xs)) / qnat (length (concat xs)))%Qc) by (unfold mean at 1; unfold deviations at 2; now rewrite map_length).
  rewrite EM.
  assert (N : qnat (length (concat xs)) <> 0%Qc) by (apply qnat_neq; destruct (concat xs); cbn; [easy|lia]).
  cbn [andb]. destruct H as [HL _]. rewrite HL, <- concat_length.
  destruct (Qc_eq_bool c 0%Qc) eqn:E.
  - apply Qc_eq_bool_correct in E as ->. do 2 f_equal. f_equal. ring.
  - destruct (Qc_eq_bool (qnat (length (concat xs))) c) eqn:E'; [apply Qc_eq_bool_correct in E'; easy|]. do 2 f_equal.
    field. split; [|easy]. intros X. apply Hc. replace c with (c + 0)%Qc by ring. rewrite <- X. ring.
Qed.
Lemma moments_biased xs lens rows : padded xs lens rows -> concat xs <> [] ->
  moments true true 0%Qc lens rows = Some (mean (concat xs), variance (concat xs)).
Proof.
  intros H Hne. rewrite (moments_masked xs); [|easy|easy|apply qnat_neq; destruct (concat xs); [easy|cbn; lia]]. do 2 f_equal.
  unfold variance, mean at 1. unfold deviations at 3. rewrite map_length. f_equal. ring.
Qed.

Lemma normalized_eq rsqrt b m v rows : normalized rsqrt b m v rows = map (map (norm_of rsqrt b m v)) rows.
Proof. unfold normalized. apply map_ext. intros r. apply map_ext. intros x. unfold norm_of. now destruct (bn_affine b) as [[g be]|]. Qed.
Lemma moved_mixed mo a b : moved_to mo a b = mixed mo a b.
Proof. unfold moved_to, mixed. ring. Qed.

Lemma call_mask rsqrt default b train lens rows : masks default b -> call rsqrt default b train true lens rows = call_masked rsqrt b train lens rows.
Proof. unfold call. now intros [-> |[-> ->]]. Qed.

Lemma train_ok rsqrt default b train xs lens rows : masks default b -> train = true \/ bn_running b = None -> padded xs lens rows -> concat xs <> [] ->
  let m := mean (concat xs) in let v := variance (concat xs) in
  exists out, call rsqrt default b train true lens rows
    = Some (with_running b (match bn_running b with None => None | Some (rm, rv) => Some (mixed (bn_momentum b) rm m, mixed (bn_momentum b) rv v) end), out) /\
    padded (map (map (norm_of rsqrt b m v)) xs) lens out.
Proof.
  intros HM HT H Hne m v. rewrite call_mask by easy. unfold call_masked.
  assert (U : (match bn_running b with None => true | Some _ => train end) = true) by (destruct HT as [->| ->]; [now destruct (bn_running b)|easy]).
  rewrite U. rewrite (moments_biased xs) by easy. rewrite normalized_eq. eexists. split.
  - f_equal. f_equal. f_equal. destruct (bn_running b) as [[rm rv]|]; [|easy]. now rewrite !moved_mixed.
  - now apply padded_map_frames.
Qed.
Lemma eval_ok rsqrt default b rm rv dyn xs lens rows : bn_running b = Some (rm, rv) -> padded xs lens rows ->
  exists out, call rsqrt default b false dyn lens rows = Some (b, out) /\ padded (map (map (norm_of rsqrt b rm rv)) xs) lens out.
Proof.
  intros HR H. exists (map (map (norm_of rsqrt b rm rv)) rows). split; [|now apply padded_map_frames].
  unfold call. rewrite <- normalized_eq. destruct (if dyn then _ else _); unfold call_masked, call_torch; rewrite HR; reflexivity.
Qed.
Lemma plain_ok rsqrt default b train dyn lens rows : (dyn = false \/ bn_use_mask b = Some false) -> train = true \/ bn_running b = None -> 1 < length (concat rows) ->
  let xs := concat rows in
  call rsqrt default b train dyn lens rows
    = Some (with_running b (match bn_running b with None => None | Some (rm, rv) => Some (mixed (bn_momentum b) rm (mean xs), mixed (bn_momentum b) rv (unbiased_variance xs)) end),
            map (map (norm_of rsqrt b (mean xs) (variance xs))) rows).
Proof.
  intros HD HT HL xs. rewrite <- normalized_eq.
  assert (E : call rsqrt default b train dyn lens rows = call_torch rsqrt b train rows) by (unfold call; destruct HD as [->| ->]; [easy|now destruct dyn]).
  rewrite E. unfold call_torch. replace (train || match bn_running b with None => true | Some _ => false end) with true
    by (destruct HT as [->| ->]; [easy|now destruct train]).
  fold xs in HL |- *. destruct (Nat.leb_spec (length xs) 1); [lia|].
  assert (Eu : (qsum (map (fun x => square (x - qsum xs / qnat (length xs))%Qc) xs) / qnat (length xs - 1))%Qc = unbiased_variance xs).
  { unfold unbiased_variance, deviations, mean. f_equal. f_equal. replace (length xs) with (S (length xs - 1)) at 2 by lia. rewrite qnat_S. ring. }
  rewrite Eu. assert (Ev : (qsum (map (fun x => square (x - qsum xs / qnat (length xs))%Qc) xs) / qnat (length xs))%Qc = variance xs).
  { unfold variance, mean at 1, deviations. now rewrite map_length. }
  rewrite Ev. fold (mean xs). f_equal. f_equal. f_equal. destruct (bn_running b) as [[rm rv]|]; [|easy]. now rewrite !moved_mixed.
Qed.

(** * what normalization does *)
Lemma mean_affine a b l : l <> [] -> mean (map (fun x => (x * a + b)%Qc) l) = (mean l * a + b)%Qc.
Proof.
  intros H. unfold mean. rewrite map_length, qsum_affine. assert (qnat (length l) <> 0)%Qc by (apply qnat_neq; destruct l; cbn; [easy|lia]). now field.
Qed.
Lemma mean_scale a l : l <> [] -> mean (map (fun x => (x * a)%Qc) l) = (mean l * a)%Qc.
Proof. intros H. unfold mean. rewrite map_length, qsum_scale. assert (qnat (length l) <> 0)%Qc by (apply qnat_neq; destruct l; cbn; [easy|lia]). now field. Qed.
Lemma variance_affine a b l : l <> [] -> variance (map (fun x => (x * a + b)%Qc) l) = (variance l * square a)%Qc.
Proof.
  intros H. unfold variance at 2. transitivity (mean (map (fun x => (x * square a)%Qc) (deviations l))).
  - unfold variance, deviations. rewrite mean_affine by easy. f_equal. rewrite !map_map. apply map_ext. intros x. unfold square. ring.
  - apply mean_scale. destruct l; easy.
Qed.
Lemma norm_stats rsqrt b l : l <> [] -> let r := rsqrt (variance l + bn_eps b)%Qc in
  mean (map (norm_of rsqrt b (mean l) (variance l)) l) = match bn_affine b with None => 0%Qc | Some (_, beta) => beta end /\
  variance (map (norm_of rsqrt b (mean l) (variance l)) l) = (variance l * square r * match bn_affine b with None => 1 | Some (gamma, _) => square gamma end)%Qc.
Proof.
  intros H r. unfold norm_of. fold r. destruct (bn_affine b) as [[g be]|].
  - rewrite (map_ext _ (fun x => (x * (r * g) + (be - mean l * (r * g)))%Qc)) by (intros; ring).
    rewrite mean_affine, variance_affine by easy. split; [ring|unfold square; ring].
  - rewrite (map_ext _ (fun x => (x * r + (- (mean l * r)))%Qc)) by (intros; ring).
    rewrite mean_affine, variance_affine by easy. split; [ring|unfold square; ring].
Qed.

(** * running statistics *)
Lemma Qcmult_nonneg a b : (0 <= a)%Qc -> (0 <= b)%Qc -> (0 <= a * b)%Qc.
Proof. intros H1 H2. replace 0%Qc with (0 * b)%Qc by ring. now apply Qcmult_le_compat_r. Qed.
Lemma Qcle_minus_iff' a b : (a <= b)%Qc <-> (0 <= b - a)%Qc.
Proof. apply Qcle_minus_iff. Qed.
Lemma Qcplus_nonneg a b : (0 <= a)%Qc -> (0 <= b)%Qc -> (0 <= a + b)%Qc.
Proof. intros H1 H2. replace 0%Qc with (0 + 0)%Qc by ring. now apply Qcplus_le_compat. Qed.
Lemma mixed_between mo lo hi a b : between 0 1 mo -> between lo hi a -> between lo hi b -> between lo hi (mixed mo a b).
Proof.
  intros [M0 M1] [A0 A1] [B0 B1]. unfold mixed. split; apply (proj2 (Qcle_minus_iff' _ _)).
  - replace ((1 - mo) * a + mo * b - lo)%Qc with ((1 - mo) * (a - lo) + mo * (b - lo))%Qc by ring.
    apply Qcplus_nonneg; apply Qcmult_nonneg; try easy; now apply (proj1 (Qcle_minus_iff' _ _)).
  - replace (hi - ((1 - mo) * a + mo * b))%Qc with ((1 - mo) * (hi - a) + mo * (hi - b))%Qc by ring.
    apply Qcplus_nonneg; apply Qcmult_nonneg; try easy; now apply (proj1 (Qcle_minus_iff' _ _)).
Qed.
Lemma mixed_all_between mo lo hi curs : between 0 1 mo -> Forall (between lo hi) curs -> forall old, between lo hi old -> between lo hi (mixed_all mo old curs).
Proof. intros HM. induction 1 as [|c curs Hc H IH]; intros old HO; [easy|]. cbn. apply IH. now apply mixed_between. Qed.

Lemma train_run_ok rsqrt default batches datas : Forall2 (fun xs b => padded xs (fst b) (snd b) /\ concat xs <> []) datas batches ->
  forall b rm rv, masks default b -> bn_running b = Some (rm, rv) ->
  train_run rsqrt default b batches = Some (with_running b (Some (mixed_all (bn_momentum b) rm (map (fun xs => mean (concat xs)) datas),
                                                                   mixed_all (bn_momentum b) rv (map (fun xs => variance (concat xs)) datas)))).
Proof.
  induction 1 as [|xs [lens rows] datas batches [H Hne] HF IH]; intros b rm rv HM HR.
  - cbn. destruct b; cbn in *. now subst.
  - cbn [train_run map mixed_all fst snd] in *. destruct (train_ok rsqrt default b true xs lens rows HM (or_introl eq_refl) H Hne) as (out & E & _).
    rewrite HR in E. rewrite E. erewrite IH; [|exact HM|reflexivity]. reflexivity.
Qed.

Lemma sq_nonneg x : (0 <= square x)%Qc.
Proof.
  unfold square. destruct (Qclt_le_dec x 0) as [H|H]; [|now apply Qcmult_nonneg].
  replace (x * x)%Qc with ((- x) * (- x))%Qc by ring. assert ((0 <= - x)%Qc) by (replace (- x)%Qc with (0 - x)%Qc by ring; apply (proj1 (Qcle_minus_iff' _ _)); now apply Qclt_le_weak).
  now apply Qcmult_nonneg.
Qed.
Lemma qsum_nonneg l : Forall (fun x => (0 <= x)%Qc) l -> (0 <= qsum l)%Qc.
Proof. induction 1 as [|x l Hx H IH]; [apply Qcle_refl|]. rewrite qsum_cons. now apply Qcplus_nonneg. Qed.
Lemma variance_nonneg l : (0 <= variance l)%Qc.
Proof.
  unfold variance, mean. unfold Qcdiv. apply Qcmult_nonneg.
  - apply qsum_nonneg. unfold deviations. apply Forall_map. apply Forall_forall. intros x _. apply sq_nonneg.
  - destruct (deviations l) as [|d ds]; [cbn; apply Qcle_refl|]. assert (P := qnat_pos (length (d :: ds)) ltac:(cbn; lia)).
    apply Qclt_le_weak. set (q := qnat _) in *. clearbody q. destruct (Qclt_le_dec 0 (/ q)) as [L|L]; [easy|]. exfalso.
    assert (X : (/ q * q <= 0 * q)%Qc) by (apply Qcmult_le_compat_r; [easy|now apply Qclt_le_weak]).
    rewrite Qcmult_inv_l in X by (now apply not_eq_sym, Qclt_not_eq). replace (0 * q)%Qc with 0%Qc in X by ring. apply Qcle_not_lt in X. apply X. reflexivity.
Qed.

(** * layer norm *)
Lemma layer_norm_ok rsqrt eps scale bias x : x <> [] -> length scale = length x -> (match bias with None => True | Some b => length b = length x end) ->
  exists out, layer_norm rsqrt eps scale bias x = Some out /\ length out = length x /\
    forall i, i < length x -> nth_error out i
      = Some ((nth i x 0 - mean x) * rsqrt (variance x + eps) * nth i scale 0 + match bias with None => 0 | Some b => nth i b 0 end)%Qc.
Proof.
  intros Hne HS HB. unfold layer_norm, moments.
  assert (HC : concat [x] = x) by apply app_nil_r.
  rewrite (reduce_mean_plain [x]); [|reflexivity| |now rewrite HC].
  2: { constructor; [|constructor]. cbn. lia. }
  rewrite HC. set (ds := map (map _) [x]). assert (HD : concat ds = deviations x) by (unfold ds; cbn [map concat]; apply app_nil_r).
  rewrite (reduce_mean_plain ds); [|unfold ds; cbn [map]; now rewrite map_length| |rewrite HD; unfold deviations; destruct x; easy].
  2: { unfold ds. constructor; [|constructor]. rewrite map_length. cbn. lia. }
  rewrite HD. fold (variance x). change (Qc_eq_bool 0%Qc 0%Qc) with true. cbn iota.
  set (out := map _ (combine x scale)). assert (Hout : length out = length x) by (unfold out; rewrite map_length, combine_length; lia).
  assert (HN : forall i, i < length x -> nth_error out i = Some ((nth i x 0 - mean x) * rsqrt (variance x + eps) * nth i scale 0)%Qc).
  { intros i Hi. unfold out. rewrite nth_error_map. rewrite (nth_error_nth' _ (0%Qc, 0%Qc)) by (rewrite combine_length; lia). rewrite combine_nth by easy. reflexivity. }
  eexists. split; [reflexivity|]. destruct bias as [b|].
  - split; [rewrite map_length, combine_length; lia|]. intros i Hi. rewrite nth_error_map, (nth_error_nth' _ (0%Qc, 0%Qc)) by (rewrite combine_length; lia).
    rewrite combine_nth by lia. cbn [option_map fst snd]. do 2 f_equal. specialize (HN i Hi). rewrite (nth_error_nth' _ 0%Qc) in HN by lia. congruence.
  - split; [easy|]. intros i Hi. rewrite HN by easy. f_equal. ring.
Qed.
Lemma mean_shift c l : l <> [] -> mean (map (fun x => (x + c)%Qc) l) = (mean l + c)%Qc.
Proof. intros H. rewrite (map_ext _ (fun x => (x * 1 + c)%Qc)) by (intros; ring). rewrite mean_affine by easy. ring. Qed.
Lemma variance_shift c l : l <> [] -> variance (map (fun x => (x + c)%Qc) l) = variance l.
Proof. intros H. rewrite (map_ext _ (fun x => (x * 1 + c)%Qc)) by (intros; ring). rewrite variance_affine by easy. unfold square. ring. Qed.
Lemma layer_norm_shift rsqrt eps scale bias c x : x <> [] -> length scale = length x -> (match bias with None => True | Some b => length b = length x end) ->
  layer_norm rsqrt eps scale bias (map (fun v => (v + c)%Qc) x) = layer_norm rsqrt eps scale bias x.
Proof.
  intros Hne HS HB. destruct (layer_norm_ok rsqrt eps scale bias x Hne HS HB) as (o1 & E1 & L1 & N1).
  destruct (layer_norm_ok rsqrt eps scale bias (map (fun v => (v + c)%Qc) x)) as (o2 & E2 & L2 & N2); [now destruct x|now rewrite map_length|destruct bias; [now rewrite map_length|easy]|].
  rewrite E1, E2. f_equal. rewrite map_length in L2, N2. apply nth_error_ext. intros i. destruct (Nat.lt_ge_cases i (length x)) as [Hi|Hi].
  - rewrite N1, N2 by easy. f_equal. rewrite mean_shift, variance_shift by easy.
    rewrite (nth_indep _ 0%Qc (0 + c)%Qc) by (now rewrite map_length). rewrite (map_nth (fun v => (v + c)%Qc)). f_equal. ring.
  - rewrite !(proj2 (nth_error_None _ _)) by lia. reflexivity.
Qed.

(** * label smoothing *)
Lemma qnat_minus1 n : n <> 1 -> (qnat n - 1)%Qc <> 0%Qc.
Proof.
  intros H E. assert (X : qnat n = 1%Qc) by (replace (qnat n) with (qnat n - 1 + 1)%Qc by ring; rewrite E; ring).
  destruct n as [|n]; [discriminate|]. rewrite qnat_S in X. assert (qnat n = 0%Qc) by (replace (qnat n) with (1 + qnat n - 1)%Qc by ring; rewrite X; ring).
  destruct n; [lia|]. now apply (qnat_neq (S n)).
Qed.
Lemma floor_ok s n : n <> 1 -> floor_prob s n = Ok (s / (qnat n - 1))%Qc.
Proof. intros H. unfold floor_prob. now destruct (Nat.eqb_spec n 1). Qed.
Lemma smoothing_ok s p : length p <> 1 -> exists f, f = (s / (qnat (length p) - 1))%Qc /\
  label_smoothing s p = Ok (map (fun x => (x * (1 - qnat (length p) * f) + f)%Qc) p).
Proof. intros H. eexists. split; [reflexivity|]. unfold label_smoothing. now rewrite floor_ok. Qed.
Lemma smoothing_sum s p : length p <> 1 -> qsum p = 1%Qc -> exists q, label_smoothing s p = Ok q /\ length q = length p /\ qsum q = 1%Qc.
Proof.
  intros H HS. destruct (smoothing_ok s p H) as (f & Ef & E). eexists. split; [exact E|]. split; [apply map_length|]. rewrite qsum_affine, HS. ring.
Qed.
Lemma inv_nonneg q : (0 < q)%Qc -> (0 <= / q)%Qc.
Proof.
  intros P. destruct (Qclt_le_dec (/ q) 0) as [L|L]; [|easy]. exfalso.
  assert (X : (/ q * q <= 0 * q)%Qc) by (apply Qcmult_le_compat_r; now apply Qclt_le_weak).
  rewrite Qcmult_inv_l in X by (now apply not_eq_sym, Qclt_not_eq). replace (0 * q)%Qc with 0%Qc in X by ring. apply Qcle_not_lt in X. apply X. reflexivity.
Qed.
Lemma qnat_gt1 n : 1 < n -> (0 < qnat n - 1)%Qc.
Proof. intros H. replace (qnat n - 1)%Qc with (qnat (n - 1)); [apply qnat_pos; lia|]. replace n with (S (n - 1)) at 2 by lia. rewrite qnat_S. ring. Qed.
(** p (1 - n f) + f = (1 - p) f + p (1 - s) *)
Lemma smooth_value s n p : n <> 1 -> let f := (s / (qnat n - 1))%Qc in (p * (1 - qnat n * f) + f)%Qc = ((1 - p) * f + p * (1 - s))%Qc.
Proof. intros H f. assert (D := qnat_minus1 n H). unfold f. field. easy. Qed.
Lemma distribution_le_1 p : distribution p -> Forall (fun x => (x <= 1)%Qc) p.
Proof.
  intros [H0 HS]. rewrite <- HS. clear HS. induction H0 as [|x p Hx H IH]; constructor.
  - rewrite qsum_cons. replace x with (x + 0)%Qc at 1 by ring. apply Qcplus_le_compat; [apply Qcle_refl|now apply qsum_nonneg].
  - eapply Forall_impl; [|exact IH]. cbn beta. intros y Hy. rewrite qsum_cons. replace y with (0 + y)%Qc by ring. now apply Qcplus_le_compat.
Qed.
Lemma smoothing_distribution s p : 1 < length p -> between 0 1 s -> distribution p -> exists q, label_smoothing s p = Ok q /\ length q = length p /\ distribution q.
Proof.
  intros HL [S0 S1] HP. destruct (smoothing_sum s p ltac:(lia) (proj2 HP)) as (q & E & L & HS). exists q. repeat split; try easy.
  destruct (smoothing_ok s p ltac:(lia)) as (f & Ef & E'). rewrite E in E'. apply Ok_inj in E'. subst q. apply Forall_map.
  apply Forall_forall. intros x Hx. rewrite Ef, smooth_value by lia.
  assert (X0 := proj1 (Forall_forall _ _) (proj1 HP) x Hx). assert (X1 := proj1 (Forall_forall _ _) (distribution_le_1 p HP) x Hx). cbn beta in *.
  apply Qcplus_nonneg; apply Qcmult_nonneg; try easy; try now apply (proj1 (Qcle_minus_iff' _ _)).
  unfold Qcdiv. apply Qcmult_nonneg; [easy|]. apply inv_nonneg. now apply qnat_gt1.
Qed.
Lemma smoothing_order s p i j : 1 < length p -> (s * qnat (length p) < qnat (length p) - 1)%Qc -> i < length p -> j < length p ->
  forall q, label_smoothing s p = Ok q -> ((nth i q 0 < nth j q 0)%Qc <-> (nth i p 0 < nth j p 0)%Qc).
Proof.
  intros HL HS Hi Hj q E. destruct (smoothing_ok s p ltac:(lia)) as (f & Ef & E'). rewrite E in E'. apply Ok_inj in E'. subst q.
  set (c := (1 - qnat (length p) * f)%Qc). assert (C : (0 < c)%Qc).
  { assert (D := qnat_gt1 (length p) HL). assert (EC : (c * (qnat (length p) - 1) = qnat (length p) - 1 - s * qnat (length p))%Qc) by (unfold c; rewrite Ef; field; now apply not_eq_sym, Qclt_not_eq).
    destruct (Qclt_le_dec 0 c) as [|L]; [easy|]. exfalso. assert (X : (c * (qnat (length p) - 1) <= 0 * (qnat (length p) - 1))%Qc) by (apply Qcmult_le_compat_r; [easy|now apply Qclt_le_weak]).
    rewrite EC in X. replace (0 * _)%Qc with 0%Qc in X by ring. apply Qcle_not_lt in X. apply X. now apply (proj1 (Qclt_minus_iff _ _)). }
  clearbody c. rewrite !(nth_indep (map _ p) 0%Qc (0 * c + f)%Qc) by (now rewrite map_length). rewrite !(map_nth (fun x => (x * c + f)%Qc)).
  rewrite (Qclt_minus_iff (nth i p 0%Qc)), (Qclt_minus_iff (nth i p 0%Qc * c + f)).
  replace (nth j p 0 * c + f + - (nth i p 0 * c + f))%Qc with ((nth j p 0 + - nth i p 0) * c)%Qc by ring. set (d := (nth j p 0 + - nth i p 0)%Qc). clearbody d.
  split; intros X.
  - destruct (Qclt_le_dec 0 d) as [|L]; [easy|]. exfalso. assert (Y : (d * c <= 0 * c)%Qc) by (apply Qcmult_le_compat_r; [easy|now apply Qclt_le_weak]).
    replace (0 * c)%Qc with 0%Qc in Y by ring. now apply Qcle_not_lt in Y.
  - replace 0%Qc with (0 * c)%Qc by ring. now apply Qcmult_lt_compat_r.
Qed.
Lemma sparse_dense s n label : n <> 1 -> label < n -> label_smoothing_sparse s n label = label_smoothing s (one_hot n label).
Proof.
  intros Hn Hl. unfold label_smoothing_sparse, smooth_one_hot, label_smoothing. assert (L : length (one_hot n label) = n) by (unfold one_hot; now rewrite map_length, seq_length).
  rewrite L, !floor_ok by easy. cbn [bind]. f_equal. unfold one_hot. rewrite map_map. apply map_ext. intros i. assert (D := qnat_minus1 n Hn). destruct (i =? label); field; easy.
Qed.
Lemma smoothing_one s p : length p = 1 -> label_smoothing s p = Err ZeroDivisionError.
Proof. intros H. unfold label_smoothing, floor_prob. now rewrite H. Qed.

Lemma combine_map3 (f : Qc -> Qc -> Qc -> Qc) a b (l : list Qc) :
  map (fun ssg => let '(sc, (sh, g)) := ssg in f sc sh g) (combine (map (fun _ => a) l) (combine (map (fun _ => b) l) l)) = map (fun g => f a b g) l.
Proof. induction l as [|x l IH]; cbn [map combine]; [easy|]. now rewrite IH. Qed.
Lemma abs_sum_neg c p : (0 <= c)%Qc -> Forall (fun x => (0 <= x)%Qc) p -> qsum (map qabs (negated (scaled c p))) = (c * qsum p)%Qc.
Proof.
  intros HC. induction 1 as [|x p Hx H IH]; [unfold qsum; cbn [fold_right map negated scaled]; ring|]. unfold negated, scaled in *. cbn [map]. rewrite !qsum_cons, IH.
  assert (HX := Qcmult_nonneg c x HC Hx). assert (E : qabs (- (c * x)) = (c * x)%Qc).
  { unfold qabs. set (y := (c * x)%Qc) in *. clearbody y. destruct (Qclt_le_dec (- y) 0) as [L|L]; [ring|]. assert (y = 0%Qc); [|subst; reflexivity].
    apply Qcle_antisym; [|easy]. apply (proj2 (Qcle_minus_iff' _ _)). now replace (0 - y)%Qc with (- y)%Qc by ring. }
  rewrite E. ring.
Qed.
Lemma smoothed_gradient_ok s c p : length p <> 1 -> (0 <= c)%Qc -> distribution p ->
  exists q, label_smoothing s p = Ok q /\ smoothed_gradient s [] (negated (scaled c p)) = Ok (negated (scaled c q)).
Proof.
  intros HL HC [H0 HS]. destruct (smoothing_ok s p HL) as (f & Ef & E). eexists. split; [exact E|]. unfold smoothed_gradient.
  assert (L : length (negated (scaled c p)) = length p) by (unfold negated, scaled; now rewrite !map_length).
  destruct (Qc_eq_bool s 0%Qc) eqn:E0.
  - apply Qc_eq_bool_correct in E0. subst s. f_equal. unfold negated, scaled. rewrite !map_map. apply map_ext. intros x.
    assert (EF : f = 0%Qc) by (rewrite Ef; unfold Qcdiv; ring). rewrite EF. ring.
  - rewrite L, floor_ok by easy. rewrite <- Ef. cbn [bind]. f_equal. unfold scaled_gradient_ext. rewrite abs_sum_neg, HS by easy.
    rewrite (combine_map3 (fun sc sh g => g * sc + sh * (c * 1))%Qc). unfold negated, scaled. rewrite !map_map. apply map_ext. intros x. ring.
Qed.

(** with excluded labels *)
Lemma mask_included exclude i : forallb (fun label => negb (Z.of_nat i =? label)%Z) (map Z.of_nat exclude) = included exclude i.
Proof.
  unfold included. induction exclude as [|e ex IH]; [easy|]. cbn [map forallb existsb]. rewrite IH, negb_orb. f_equal. f_equal.
  destruct (Z.eqb_spec (Z.of_nat i) (Z.of_nat e)), (Nat.eqb_spec i e); try easy; lia.
Qed.
Lemma included_count exclude n : NoDup exclude -> Forall (fun e => e < n) exclude -> length (filter (included exclude) (seq 0 n)) + length exclude = n.
Proof.
  intros HN HB. assert (P : Permutation (filter (fun i => negb (included exclude i)) (seq 0 n)) exclude).
  { apply NoDup_Permutation; [apply NoDup_filter, seq_NoDup|easy|]. intros x. rewrite filter_In, in_seq. unfold included. rewrite negb_involutive, existsb_exists. split.
    - intros [_ (y & Hy & E)]. apply Nat.eqb_eq in E. now subst.
    - intros Hx. split; [|exists x; split; [easy|apply Nat.eqb_refl]]. assert (X := proj1 (Forall_forall _ _) HB x Hx). cbn in X. lia. }
  apply Permutation_length in P. rewrite <- P. clear. set (l := seq 0 n). replace n with (length l) by (apply seq_length). clearbody l.
  induction l as [|x l IH]; [easy|]. cbn [filter length]. destruct (included exclude x); cbn [negb length]; lia.
Qed.
Lemma excluded_sum (f : nat -> bool) F fl m c (p : list Qc) : forall k,
  qsum (map (fun ssg => let '(sc, (sh, g)) := ssg in (g * sc + sh * m)%Qc)
    (combine (map (fun b : bool => if b then F else 1%Qc) (map f (seq k (length p))))
       (combine (map (fun b : bool => (- if b then fl else 0)%Qc) (map f (seq k (length p)))) (negated (scaled c p)))))
  = (- (F * (c * (qsum p - qsum (map snd (filter (fun ip => negb (f (fst ip))) (combine (seq k (length p)) p))))))
     - c * qsum (map snd (filter (fun ip => negb (f (fst ip))) (combine (seq k (length p)) p)))
     - m * fl * qnat (length (filter f (seq k (length p)))))%Qc.
Proof.
  induction p as [|x p IH]; intros k.
  - cbn [length seq map combine filter negated scaled]. unfold qsum. cbn [fold_right]. rewrite qnat_0. ring.
  - cbn [length seq map combine filter negated scaled fst]. unfold negated, scaled in *. cbn [map combine]. rewrite !qsum_cons. rewrite IH.
    destruct (f k); cbn [negb length map]; rewrite ?qsum_cons, ?qnat_S; cbn [snd]; ring.
Qed.
Lemma nth_map_seq {A} (f : A -> Qc) (g : nat -> A) n i d : i < n -> nth i (map f (map g (seq 0 n))) d = f (g i).
Proof. intros H. rewrite map_map. rewrite (nth_indep _ d (f (g 0))) by (rewrite map_length, seq_length; lia). rewrite (map_nth (fun j => f (g j))), seq_nth by easy. reflexivity. Qed.
Lemma smoothed_excluded s c exclude p : s <> 0%Qc -> exclude <> [] -> NoDup exclude -> Forall (fun e => e < length p) exclude -> length p <> length exclude + 1 ->
  (0 <= c)%Qc -> distribution p ->
  let k := length p - length exclude in
  exists q, smoothed_gradient s (map Z.of_nat exclude) (negated (scaled c p)) = Ok q /\ length q = length p /\
    (forall i, i < length p -> nth i q 0%Qc =
       (- (c * if included exclude i then (1 - nth i p 0) * (s / (qnat k - 1)) + nth i p 0 * (1 - s) else nth i p 0))%Qc) /\
    qsum q = (- (c * (1 + excluded_prob exclude p * qnat k * (s / (qnat k - 1)))))%Qc.
Proof.
  intros HS HE HN HB HL HC [H0 H1] k. unfold smoothed_gradient. assert (L : length (negated (scaled c p)) = length p) by (unfold negated, scaled; now rewrite !map_length).
  assert (HX := included_count exclude (length p) HN HB).
  destruct (Qc_eq_bool s 0%Qc) eqn:E0; [apply Qc_eq_bool_correct in E0; easy|]. destruct (map Z.of_nat exclude) as [|z zs] eqn:EM; [destruct exclude; easy|]. rewrite <- EM. clear z zs EM.
  rewrite map_length, L. assert (EK : (Z.of_nat (length p) - Z.of_nat (length exclude))%Z = Z.of_nat k) by (unfold k; lia). rewrite EK.
  destruct (Z.eqb_spec (Z.of_nat k) 1) as [X|_]; [lia|]. fold (qnat k). eexists. split; [reflexivity|]. unfold scaled_gradient_ext. rewrite abs_sum_neg, H1 by easy.
  rewrite (map_ext (fun i => forallb _ _) (included exclude)) by (intros; apply mask_included).
  assert (D := qnat_minus1 k ltac:(lia)).
  split; [rewrite map_length, !combine_length, L, !map_length, seq_length; lia|]. split.
  { intros i Hi. apply nth_error_nth. rewrite nth_error_map. rewrite (nth_error_nth' _ (0%Qc, (0%Qc, 0%Qc))) by (rewrite !combine_length, L, !map_length, seq_length; lia).
    rewrite !combine_nth by (rewrite ?combine_length, ?L, !map_length, seq_length; lia). cbn [option_map]. f_equal.
    rewrite !nth_map_seq by easy.
    unfold negated, scaled. rewrite (nth_indep _ 0%Qc (- (c * 0))%Qc) by (rewrite !map_length; lia). rewrite (map_nth Qcopp), (map_nth (Qcmult c)).
    destruct (included exclude i); [field; easy|ring]. }
  rewrite excluded_sum. fold (excluded_prob exclude p). replace (length (filter (included exclude) (seq 0 (length p)))) with k by (unfold k; lia). rewrite H1. field. easy.
Qed.
