From Coq Require Import QArith Qcanon.
From Coq Require Import Permutation Sorted Lia.
From Verif Require Import Base ListLemmas ConvModel ConvProofs PadOpsModel PadOpsProofs ScatterModel ScatterSpec.
Local Open Scope nat_scope.

Section Generic.
Context {A : Type} (op : A -> A -> A).

Definition ored (o : option A) (l : list A) : option A :=
  fold_left (fun o a => Some (match o with None => a | Some b => op b a end)) l o.

Lemma pointing_cons i idxs a (src : list A) o :
  pointing (i :: idxs) (a :: src) o = if (i =? Z.of_nat o)%Z then a :: pointing idxs src o else pointing idxs src o.
Proof. unfold pointing. cbn [combine filter fst]. destruct (i =? Z.of_nat o)%Z; reflexivity. Qed.
Lemma pointing_app idxs (src : list A) idxs' src' o : length idxs = length src ->
  pointing (idxs ++ idxs') (src ++ src') o = pointing idxs src o ++ pointing idxs' src' o.
Proof. intros H. unfold pointing. rewrite combine_app' by auto. rewrite filter_app, map_app. reflexivity. Qed.

Lemma scatter_acc_ok O idxs : forall (src : list A) acc, length acc = O -> length idxs = length src -> Forall (within O) idxs ->
  exists out, scatter_acc op acc idxs src = Ok out /\ length out = O /\
    forall o x, nth_error acc o = Some x -> nth_error out o = Some (ored x (pointing idxs src o)).
Proof.
  induction idxs as [|i idxs IH]; intros [|a src] acc HO HL HF; try discriminate.
  - exists acc. cbn. auto.
  - apply Forall_cons_iff in HF as [Hi HF]. unfold within in Hi. cbn [scatter_acc].
    rewrite (proj2 (Z.ltb_ge _ _)) by lia.
    assert (L : Z.to_nat i < length acc) by lia.
    destruct (nth_error acc (Z.to_nat i)) as [x0|] eqn:E0; [|apply nth_error_None in E0; lia].
    set (acc' := firstn (Z.to_nat i) acc ++ Some (match x0 with None => a | Some b => op b a end) :: skipn (S (Z.to_nat i)) acc).
    assert (HO' : length acc' = O).
    { unfold acc'. rewrite app_length, firstn_length. cbn [length]. rewrite skipn_length. lia. }
    destruct (IH src acc' HO' ltac:(cbn in HL; lia) HF) as (out & E & Lo & N). exists out. split; [exact E|]. split; auto.
    intros o x Hx. rewrite pointing_cons.
    assert (Hacc : nth_error acc' o = Some (if (i =? Z.of_nat o)%Z then Some (match x with None => a | Some b => op b a end) else x)).
    { unfold acc'. destruct (Z.eqb_spec i (Z.of_nat o)) as [->|D].
      - rewrite Nat2Z.id in *. rewrite nth_error_app2 by (rewrite firstn_length; lia).
        rewrite firstn_length, Nat.min_l by lia. rewrite Nat.sub_diag. cbn. rewrite E0 in Hx. injection Hx as <-. reflexivity.
      - destruct (Nat.lt_ge_cases o (Z.to_nat i)) as [Lt|Ge].
        + rewrite nth_error_app1 by (rewrite firstn_length; lia). rewrite nth_error_firstn' by lia. auto.
        + rewrite nth_error_app2 by (rewrite firstn_length; lia). rewrite firstn_length, Nat.min_l by lia.
          destruct (o - Z.to_nat i) as [|k] eqn:K; [lia|]. cbn [nth_error]. rewrite nth_error_skipn'. rewrite <- Hx. f_equal. lia. }
    rewrite (N _ _ Hacc). destruct (i =? Z.of_nat o)%Z; reflexivity.
Qed.

Definition filled (fill : A) (o : option A) : A := match o with None => fill | Some a => a end.

Lemma backend_ok fill O idxs (src : list A) : length idxs = length src -> Forall (within O) idxs ->
  exists out, backend_scatter op fill O idxs src = Ok out /\ length out = O /\
    forall o, o < O -> nth_error out o = Some (filled fill (ored None (pointing idxs src o))).
Proof.
  intros HL HF. destruct (scatter_acc_ok O idxs src (repeat None O) (repeat_length _ _) HL HF) as (acc & E & L & N).
  unfold backend_scatter. rewrite E. cbn [bind]. eexists. split; [reflexivity|]. split; [rewrite map_length; auto|].
  intros o Ho. rewrite nth_error_map. rewrite (N o None); [reflexivity|]. apply nth_error_repeat'; auto.
Qed.

Lemma scatter_acc_range O idxs : forall (src : list A) acc, length acc = O -> length idxs = length src ->
  is_ok (scatter_acc op acc idxs src) = true -> Forall (within O) idxs.
Proof.
  induction idxs as [|i idxs IH]; intros [|a src] acc HO HL H; try discriminate; constructor.
  - cbn [scatter_acc] in H. destruct (Z.ltb_spec i 0); [discriminate|]. destruct (nth_error acc (Z.to_nat i)) eqn:E; [|discriminate].
    assert (Z.to_nat i < length acc) by (apply nth_error_Some; congruence). unfold within. lia.
  - cbn [scatter_acc] in H. destruct (Z.ltb_spec i 0); [discriminate|]. destruct (nth_error acc (Z.to_nat i)) eqn:E; [|discriminate].
    assert (Z.to_nat i < length acc) by (apply nth_error_Some; congruence).
    eapply (IH src); [|cbn in HL; lia|exact H]. rewrite app_length, firstn_length. cbn [length]. rewrite skipn_length. lia.
Qed.

Lemma ored_app o l l' : ored o (l ++ l') = ored (ored o l) l'.
Proof. apply fold_left_app. Qed.
Lemma ored_fills fill x l : op x fill = x -> Forall (eq fill) l -> ored (Some x) l = Some x.
Proof. intros H F. induction F as [|a l <- F IH]; cbn; auto. rewrite H. exact IH. Qed.
Lemma ored_fills_none fill l : op fill fill = fill -> Forall (eq fill) l -> filled fill (ored None l) = fill.
Proof. intros H F. destruct F as [|a l <- F]; cbn; auto. change (filled fill (ored (Some fill) l) = fill). rewrite (ored_fills fill) by auto. reflexivity. Qed.
Lemma ored_fold a l : ored (Some a) l = Some (fold_left op l a).
Proof. revert a. induction l as [|b l IH]; intros a; cbn; auto. apply (IH (op a b)). Qed.

Lemma pointing_repeat jidxs (v : A) n o : Forall (eq v) (pointing jidxs (repeat v n) o).
Proof.
  apply Forall_forall. intros x Hx. unfold pointing in Hx. apply in_map_iff in Hx as ((i & y) & <- & H). apply filter_In in H as [H _].
  apply in_combine_r in H. symmetry. apply (repeat_spec _ _ _ H).
Qed.

(** padding does not matter if the fill value does nothing *)
Lemma scatter_okP fill O idxs (src : list A) jidxs junk :
  op fill fill = fill -> (forall o x, ored None (pointing idxs src o) = Some x -> op x fill = x) -> length idxs = length src -> length jidxs = length junk -> Forall (within O) (idxs ++ jidxs) ->
  exists out, scatter op fill true (length src) O (idxs ++ jidxs) (src ++ junk) = Ok out /\ length out = O /\
    forall o, o < O -> nth_error out o = Some (filled fill (ored None (pointing idxs src o))).
Proof.
  intros Hn Hx HL HJ HF. unfold scatter. rewrite masked_app.
  destruct (backend_ok fill O (idxs ++ jidxs) (src ++ repeat fill (length junk))) as (out & E & L & N); auto.
  { rewrite !app_length, repeat_length. lia. }
  exists out. split; auto. split; auto. intros o Ho. rewrite (N o Ho). rewrite pointing_app by auto. rewrite ored_app. f_equal.
  pose proof (pointing_repeat jidxs fill (length junk) o) as F.
  destruct (ored None (pointing idxs src o)) as [x|] eqn:Ex; cbn [filled].
  - rewrite (ored_fills fill) by eauto. reflexivity.
  - apply ored_fills_none; auto.
Qed.
Lemma scatter_ok fill O idxs (src : list A) jidxs junk :
  (forall a, op a fill = a) -> length idxs = length src -> length jidxs = length junk -> Forall (within O) (idxs ++ jidxs) ->
  exists out, scatter op fill true (length src) O (idxs ++ jidxs) (src ++ junk) = Ok out /\ length out = O /\
    forall o, o < O -> nth_error out o = Some (filled fill (ored None (pointing idxs src o))).
Proof. intros. apply scatter_okP; auto. Qed.
Lemma scatter_range fill um n O idxs (src : list A) : length idxs = length src ->
  is_ok (scatter op fill um n O idxs src) = true -> Forall (within O) idxs.
Proof.
  intros HL H. unfold scatter, backend_scatter in H. rewrite bind_is_ok in H by reflexivity.
  eapply scatter_acc_range with (acc := repeat None O); [apply repeat_length| |exact H].
  destruct um; auto. unfold masked. rewrite map_length, combine_length, seq_length. lia.
Qed.
(** without padding, any fill value *)
Lemma scatter_full fill um O idxs (src : list A) :
  length idxs = length src -> Forall (within O) idxs ->
  exists out, scatter op fill um (length src) O idxs src = Ok out /\ length out = O /\
    forall o, o < O -> nth_error out o = Some (filled fill (ored None (pointing idxs src o))).
Proof.
  intros HL HF. unfold scatter. assert (E : (if um then masked fill (length src) src else src) = src).
  { destruct um; auto. pose proof (masked_app fill src []) as M. rewrite !app_nil_r in M. exact M. }
  rewrite E. apply backend_ok; auto.
Qed.
End Generic.

(** sums *)
Lemma fold_left_zsum l a : fold_left Z.add l a = (a + zsum l)%Z.
Proof. revert a. induction l as [|b l IH]; intros a; cbn [fold_left zsum fold_right]; [lia|]. rewrite IH. unfold zsum. lia. Qed.
Lemma ored_zsum l : filled 0%Z (ored Z.add None l) = zsum l.
Proof. destruct l as [|a l]; cbn [filled]; auto. change (ored Z.add None (a :: l)) with (ored Z.add (Some a) l). rewrite ored_fold. cbn [filled]. apply fold_left_zsum. Qed.

Lemma num_leb_refl a : num_leb a a = true.
Proof. destruct a; cbn; auto. apply Z.leb_refl. Qed.
Lemma num_leb_trans a b c : num_leb a b = true -> num_leb b c = true -> num_leb a c = true.
Proof. destruct a, b, c; cbn; auto; try discriminate. rewrite !Z.leb_le. lia. Qed.
Lemma num_leb_total a b : num_leb a b = false -> num_leb b a = true.
Proof. destruct a, b; cbn; auto. rewrite Z.leb_gt, Z.leb_le. lia. Qed.
Lemma num_eqb_eq a b : num_eqb a b = true <-> a = b.
Proof.
  unfold num_eqb. rewrite Bool.andb_true_iff. split; [|intros ->; split; apply num_leb_refl].
  destruct a, b; cbn; intros [H1 H2]; try discriminate; auto. f_equal. apply Z.leb_le in H1, H2. lia.
Qed.
Lemma num_max_ge_l a b : num_leb a (num_max a b) = true.
Proof. unfold num_max. destruct (num_leb a b) eqn:E; auto using num_leb_refl. Qed.
Lemma num_max_ge_r a b : num_leb b (num_max a b) = true.
Proof. unfold num_max. destruct (num_leb a b) eqn:E; auto using num_leb_refl, num_leb_total. Qed.
Lemma num_min_le_l a b : num_leb (num_min a b) a = true.
Proof. unfold num_min. destruct (num_leb a b) eqn:E; auto using num_leb_refl, num_leb_total. Qed.
Lemma num_min_le_r a b : num_leb (num_min a b) b = true.
Proof. unfold num_min. destruct (num_leb a b) eqn:E; auto using num_leb_refl. Qed.
Lemma num_max_neg a : num_max a NegInf = a.
Proof. destruct a; reflexivity. Qed.
Lemma num_min_pos a : num_min a PosInf = a.
Proof. unfold num_min. destruct a; reflexivity. Qed.

Lemma fold_max l : forall a, In (fold_left num_max l a) (a :: l) /\ Forall (fun b => num_leb b (fold_left num_max l a) = true) (a :: l).
Proof.
  induction l as [|b l IH]; intros a; cbn [fold_left].
  - split; [left; auto|]. constructor; auto using num_leb_refl.
  - destruct (IH (num_max a b)) as [I F]. apply Forall_cons_iff in F as [F0 F]. split.
    + destruct I as [I|I]; [|right; right; auto]. rewrite <- I. unfold num_max. destruct (num_leb a b); [right; left; auto|left; auto].
    + constructor; [|constructor]; auto; eapply num_leb_trans; [|exact F0| |exact F0]; auto using num_max_ge_l, num_max_ge_r.
Qed.
Lemma fold_min l : forall a, In (fold_left num_min l a) (a :: l) /\ Forall (fun b => num_leb (fold_left num_min l a) b = true) (a :: l).
Proof.
  induction l as [|b l IH]; intros a; cbn [fold_left].
  - split; [left; auto|]. constructor; auto using num_leb_refl.
  - destruct (IH (num_min a b)) as [I F]. apply Forall_cons_iff in F as [F0 F]. split.
    + destruct I as [I|I]; [|right; right; auto]. rewrite <- I. unfold num_min. destruct (num_leb a b); [left; auto|right; left; auto].
    + constructor; [|constructor]; auto; eapply num_leb_trans; [exact F0| |exact F0|]; auto using num_min_le_l, num_min_le_r.
Qed.
Lemma ored_largest l : largest l (filled NegInf (ored num_max None l)).
Proof.
  destruct l as [|a l]; [left; auto|right]. change (ored num_max None (a :: l)) with (ored num_max (Some a) l). rewrite ored_fold. apply fold_max.
Qed.
Lemma ored_smallest l : smallest l (filled PosInf (ored num_min None l)).
Proof.
  destruct l as [|a l]; [left; auto|right]. change (ored num_min None (a :: l)) with (ored num_min (Some a) l). rewrite ored_fold. apply fold_min.
Qed.

Lemma scatter_ok2 {A} (op : A -> A -> A) fill um O idxs (src : list A) jidxs junk :
  um = true \/ junk = [] ->
  (forall a, op a fill = a) -> length idxs = length src -> length jidxs = length junk -> Forall (within O) (idxs ++ jidxs) ->
  exists out, scatter op fill um (length src) O (idxs ++ jidxs) (src ++ junk) = Ok out /\ length out = O /\
    forall o, o < O -> nth_error out o = Some (filled fill (ored op None (pointing idxs src o))).
Proof.
  intros [->| ->] Hn HL HJ HF; [apply scatter_ok; auto|]. destruct jidxs; [|discriminate]. rewrite !app_nil_r in *. apply scatter_full; auto.
Qed.
Lemma nth_error_Some_lt {A} (l : list A) i a : nth_error l i = Some a -> i < length l.
Proof. intros H. apply nth_error_Some. congruence. Qed.
Lemma pointing_In {A} idxs (src : list A) o a :
  In a (pointing idxs src o) <-> exists t, nth_error idxs t = Some (Z.of_nat o) /\ nth_error src t = Some a.
Proof.
  unfold pointing. rewrite in_map_iff. split.
  - intros ((i & b) & <- & H). apply filter_In in H as [H E]. cbn in E. apply Z.eqb_eq in E. apply In_nth_error in H as (t & H).
    rewrite nth_error_combine in H. exists t. cbn [snd]. destruct (nth_error idxs t), (nth_error src t); try discriminate.
    injection H as -> ->. subst. auto.
  - intros (t & Hi & Ha). exists (Z.of_nat o, a). split; auto. apply filter_In. split; [|cbn; apply Z.eqb_refl].
    apply (nth_error_In _ t). rewrite nth_error_combine, Hi, Ha. reflexivity.
Qed.

Lemma fold_zmin l : forall a, In (fold_left Z.min l a) (a :: l) /\ Forall (fun b => (fold_left Z.min l a <= b)%Z) (a :: l).
Proof.
  induction l as [|b l IH]; intros a; cbn [fold_left].
  - split; [left; auto|]. constructor; auto. lia.
  - destruct (IH (Z.min a b)) as [I F]. apply Forall_cons_iff in F as [F0 F]. split.
    + destruct I as [I|I]; [|right; right; auto]. rewrite <- I. destruct (Z.min_spec a b) as [[_ ->]|[_ ->]]; [left; auto|right; left; auto].
    + constructor; [|constructor]; auto; lia.
Qed.
Lemma ored_zmin inv l : (l = [] /\ filled inv (ored Z.min None l) = inv) \/
  (In (filled inv (ored Z.min None l)) l /\ Forall (fun b => (filled inv (ored Z.min None l) <= b)%Z) l).
Proof.
  destruct l as [|a l]; [left; auto|right]. change (ored Z.min None (a :: l)) with (ored Z.min (Some a) l). rewrite ored_fold. apply fold_zmin.
Qed.

Lemma map_combine_seq_repeat {T} (f : bool * nat -> T) l k b :
  map f (combine (l ++ repeat b k) (seq 0 (length (l ++ repeat b k)))) =
  map f (combine l (seq 0 (length l))) ++ map (fun t => f (b, t)) (seq (length l) k).
Proof.
  rewrite app_length, repeat_length, seq_app. rewrite combine_app' by (rewrite seq_length; auto). rewrite map_app. f_equal.
  cbn [plus]. generalize (length l). induction k as [|k IH]; intros n; cbn; auto. f_equal. apply IH.
Qed.

(** the state after the first part of [scatter_argmax] *)
Lemma argmax_form um O idxs src jidxs junk invalid maxint :
  um = true \/ junk = [] ->
  length idxs = length src -> length jidxs = length junk -> Forall (within O) (idxs ++ jidxs) ->
  exists (S : list Z), length S = length src /\
   (forall o t a, nth_error idxs t = Some (Z.of_nat o) -> nth_error src t = Some a ->
      nth_error S t = Some (if num_eqb (filled NegInf (ored num_max None (pointing idxs src o))) a then Z.of_nat t else maxint)) /\
   exists J, length J = length junk /\
   scatter_argmax um (length src) O (idxs ++ jidxs) (src ++ junk) (Some invalid) maxint =
   bind (scatter Z.min invalid um (length src) O (idxs ++ jidxs) (S ++ J))
     (fun out => Ok (if (maxint =? invalid)%Z then out else map (fun o => if (o =? maxint)%Z then invalid else o) out)).
Proof.
  intros HM HL HJ HF. destruct (scatter_ok2 num_max NegInf um O idxs src jidxs junk HM num_max_neg HL HJ HF) as (om & E & L & N).
  set (g := fun i => nth (Z.to_nat i) om NegInf).
  assert (EG : mapM (gather1 om) (idxs ++ jidxs) = Ok (map g idxs ++ map g jidxs)).
  { rewrite <- map_app. apply mapM_ok_map. intros i Hi. rewrite Forall_forall in HF. specialize (HF i Hi). unfold within in HF.
    replace i with (Z.of_nat (Z.to_nat i)) at 1 by lia. apply gather1_nth. lia. }
  set (m := map (fun ab => num_eqb (fst ab) (snd ab)) (combine (map g idxs) src)).
  assert (Lm : length m = length src) by (unfold m; rewrite map_length, combine_length, map_length; lia).
  set (f := fun bt : bool * nat => if fst bt then Z.of_nat (snd bt) else maxint).
  exists (map f (combine m (seq 0 (length m)))). split; [|split].
  - rewrite map_length, combine_length, seq_length. lia.
  - intros o t a Hi Ha. rewrite nth_error_map, nth_error_combine. unfold m at 1. rewrite nth_error_map, nth_error_combine, nth_error_map, Hi, Ha.
    cbn [option_map fst snd]. assert (t < length src) by (apply nth_error_Some; congruence).
    rewrite nth_error_seq by lia. unfold f. cbn [option_map fst snd plus].
    assert (Ho : o < O). { rewrite Forall_forall in HF. specialize (HF (Z.of_nat o) ltac:(apply in_or_app; left; eapply nth_error_In; eauto)). unfold within in HF. lia. }
    unfold g. rewrite Nat2Z.id. rewrite (nth_error_nth _ _ _ (N o Ho)). reflexivity.
  - exists (map (fun t => f (false, t)) (seq (length m) (length junk))). split; [rewrite map_length, seq_length; auto|].
    unfold scatter_argmax. rewrite E. cbn [bind]. rewrite EG. cbn [bind].
    rewrite combine_app' by (rewrite map_length; auto). rewrite map_app. fold m. rewrite <- Lm, masked_app. rewrite !map_length, combine_length, map_length.
    rewrite HJ, Nat.min_id. fold f. rewrite map_combine_seq_repeat. reflexivity.
Qed.

Lemma argmax_min O idxs src S maxint o inv r :
  length idxs = length src -> length S = length src -> (Z.of_nat (length src) <= maxint)%Z -> o < O ->
  (forall o t a, nth_error idxs t = Some (Z.of_nat o) -> nth_error src t = Some a ->
      nth_error S t = Some (if num_eqb (filled NegInf (ored num_max None (pointing idxs src o))) a then Z.of_nat t else maxint)) ->
  r = filled inv (ored Z.min None (pointing idxs S o)) ->
  (~ In (Z.of_nat o) idxs /\ r = inv) \/
  (exists t, r = Z.of_nat t /\ (r < maxint)%Z /\ first_largest idxs src o t).
Proof.
  intros HL HS HM Ho N ->. destruct (ored_zmin inv (pointing idxs S o)) as [[E1 E2]|[I F]].
  - left. split; [|rewrite E2; auto]. intros Hi. apply In_nth_error in Hi as (t & Hi).
    assert (t < length idxs) by (apply nth_error_Some; congruence).
    destruct (nth_error S t) as [s|] eqn:Es; [|apply nth_error_None in Es; lia].
    assert (In s (pointing idxs S o)) by (apply pointing_In; eauto). rewrite E1 in H0. destruct H0.
  - right. set (r := filled inv (ored Z.min None (pointing idxs S o))) in *. clearbody r.
    pose proof (ored_largest (pointing idxs src o)) as La. set (M := filled NegInf (ored num_max None (pointing idxs src o))) in *.
    apply pointing_In in I as (t & Hi & Hs). assert (t < length idxs) by (apply nth_error_Some; congruence).
    destruct (nth_error src t) as [a|] eqn:Ea; [|apply nth_error_None in Ea; lia].
    destruct La as [[La _]|[LI LF]].
    { assert (In a (pointing idxs src o)) by (apply pointing_In; eauto). rewrite La in H0. destruct H0. }
    apply pointing_In in LI as (t0 & Hi0 & Ha0). assert (t0 < length idxs) by (apply nth_error_Some; congruence).
    assert (Rall : forall t' a', nth_error idxs t' = Some (Z.of_nat o) -> nth_error src t' = Some a' -> num_leb a' M = true /\ (a' = M -> (r <= Z.of_nat t')%Z)).
    { intros t' a' Hi' Ha'. split.
      - rewrite Forall_forall in LF. apply LF, pointing_In. eauto.
      - intros ->. rewrite Forall_forall in F. apply F, pointing_In. exists t'. split; auto. rewrite (N o t' M Hi' Ha').
        unfold M at 1. fold M. rewrite (proj2 (num_eqb_eq M M)) by auto. reflexivity. }
    destruct (Rall t0 M Hi0 Ha0) as [_ R0]. specialize (R0 eq_refl).
    rewrite (N o t a Hi Ea) in Hs. fold M in Hs. injection Hs as Hs. destruct (num_eqb M a) eqn:EM; [|lia].
    apply num_eqb_eq in EM. subst a. exists t. split; [auto|]. split; [lia|]. exists M. split; [auto|]. split; [auto|].
    intros t' a' Hi' Ha'. destruct (Rall t' a' Hi' Ha') as [R1 R2]. split; auto. intros Q. assert (a' = M) as Ea'.
    { apply num_eqb_eq. unfold num_eqb. rewrite R1, Q. reflexivity. }
    specialize (R2 Ea'). lia.
Qed.

Lemma argmax_full um O idxs src invalid maxint :
  length idxs = length src -> Forall (within O) idxs -> (Z.of_nat (length src) <= maxint)%Z ->
  exists out, scatter_argmax um (length src) O idxs src (Some invalid) maxint = Ok out /\ length out = O /\
    forall o, o < O -> exists r, nth_error out o = Some r /\
      ((~ In (Z.of_nat o) idxs /\ r = invalid) \/ exists t, r = Z.of_nat t /\ first_largest idxs src o t).
Proof.
  intros HL HF HM. pose proof (argmax_form um O idxs src [] [] invalid maxint (or_intror eq_refl) HL eq_refl) as H.
  rewrite !app_nil_r in H. destruct (H HF) as (S & LS & N & [|? ?] & LJ & E); [|discriminate]. rewrite app_nil_r in E. rewrite E.
  rewrite <- LS in E |- *. destruct (scatter_full Z.min invalid um O idxs S) as (out & Eo & Lo & No); [lia|auto|].
  rewrite Eo. cbn [bind]. eexists. split; [reflexivity|]. split; [destruct (maxint =? invalid)%Z; [|rewrite map_length]; auto|].
  intros o Ho. specialize (No o Ho). set (r := filled invalid (ored Z.min None (pointing idxs S o))) in *.
  pose proof (argmax_min O idxs src S maxint o invalid r HL LS HM Ho N eq_refl) as R. clearbody r.
  destruct (maxint =? invalid)%Z.
  - exists r. split; auto. destruct R as [R|(t & R & _ & Q)]; eauto.
  - rewrite nth_error_map, No. cbn [option_map]. eexists. split; [reflexivity|]. destruct R as [[R1 ->]|(t & -> & R & Q)].
    + left. split; auto. destruct (invalid =? maxint)%Z; auto.
    + right. exists t. rewrite (proj2 (Z.eqb_neq _ _)) by lia. auto.
Qed.

Lemma ored_zmin_app l l' inv : (exists x, In x l') -> Forall (eq inv) l' -> Forall (fun x => (inv <= x)%Z) l -> filled inv (ored Z.min None (l ++ l')) = inv.
Proof.
  intros (x & Hx) F Fl. destruct (ored_zmin inv (l ++ l')) as [[E ->]|[I G]]; auto.
  rewrite Forall_forall in *. pose proof (F x Hx). subst x. specialize (G inv (in_or_app _ _ _ (or_intror Hx))).
  apply in_app_iff in I as [I|I]; [specialize (Fl _ I); lia|]. specialize (F _ I). auto.
Qed.

(** what happens with padding *)
Lemma argmax_padded O idxs src jidxs junk invalid maxint :
  length idxs = length src -> length jidxs = length junk -> Forall (within O) (idxs ++ jidxs) -> (Z.of_nat (length src) <= maxint)%Z ->
  (invalid < 0)%Z ->
  exists out, scatter_argmax true (length src) O (idxs ++ jidxs) (src ++ junk) (Some invalid) maxint = Ok out /\ length out = O /\
    forall o, o < O -> exists r, nth_error out o = Some r /\
      (if existsb (Z.eqb (Z.of_nat o)) jidxs then r = invalid
       else (~ In (Z.of_nat o) idxs /\ r = invalid) \/ exists t, r = Z.of_nat t /\ first_largest idxs src o t).
Proof.
  intros HL HJ HF HM HI. destruct (argmax_form true O idxs src jidxs junk invalid maxint (or_introl eq_refl) HL HJ HF) as (S & LS & N & J & LJ & E).
  rewrite E. unfold scatter. rewrite <- LS, masked_app.
  destruct (backend_ok Z.min invalid O (idxs ++ jidxs) (S ++ repeat invalid (length J))) as (out & Eo & Lo & No); [rewrite !app_length, repeat_length; lia|auto|].
  rewrite Eo. cbn [bind]. rewrite (proj2 (Z.eqb_neq maxint invalid)) by lia.
  eexists. split; [reflexivity|]. split; [rewrite map_length; auto|].
  intros o Ho. specialize (No o Ho). rewrite pointing_app in No by lia. rewrite nth_error_map, No. cbn [option_map]. eexists. split; [reflexivity|].
  destruct (existsb (Z.eqb (Z.of_nat o)) jidxs) eqn:EJ.
  - rewrite ored_zmin_app.
    + destruct (invalid =? maxint)%Z; auto.
    + apply existsb_exists in EJ as (i & Hi & Ei). apply Z.eqb_eq in Ei. subst i. apply In_nth_error in Hi as (t & Ht).
      exists invalid. apply pointing_In. exists t. split; auto. apply nth_error_repeat'. apply nth_error_Some_lt in Ht. lia.
    + apply pointing_repeat.
    + apply Forall_forall. intros x Hx. apply pointing_In in Hx as (t & Hi & Hs). assert (Hlt : t < length idxs) by (apply nth_error_Some; congruence).
      destruct (nth_error src t) as [a|] eqn:Ea; [|apply nth_error_None in Ea; lia].
      rewrite (N o t a Hi Ea) in Hs. injection Hs as <-. destruct (num_eqb _ a); lia.
  - replace (pointing jidxs (repeat invalid (length J)) o) with (@nil Z).
    + rewrite app_nil_r. set (r := filled invalid (ored Z.min None (pointing idxs S o))) in *.
      pose proof (argmax_min O idxs src S maxint o invalid r HL LS HM Ho N eq_refl) as R. clearbody r.
      destruct R as [[R1 ->]|(t & -> & R & Q)].
      * left. split; auto. destruct (invalid =? maxint)%Z; auto.
      * right. exists t. rewrite (proj2 (Z.eqb_neq _ _)) by lia. auto.
    + destruct (pointing jidxs (repeat invalid (length J)) o) as [|x l] eqn:Ep; auto. exfalso.
      assert (Hx : In x (pointing jidxs (repeat invalid (length J)) o)) by (rewrite Ep; left; auto).
      apply pointing_In in Hx as (t & Ht & _). apply nth_error_In in Ht.
      assert (existsb (Z.eqb (Z.of_nat o)) jidxs = true) by (apply existsb_exists; exists (Z.of_nat o); split; [auto|apply Z.eqb_refl]). congruence.
Qed.

(** * log-sum-exp *)
Lemma qmax_l a b : (a <= qmax a b)%Qc.
Proof. unfold qmax. destruct (Qclt_le_dec a b); [apply Qclt_le_weak; auto|apply Qcle_refl]. Qed.
Lemma qmax_r a b : (b <= qmax a b)%Qc.
Proof. unfold qmax. destruct (Qclt_le_dec a b); [apply Qcle_refl|auto]. Qed.
Lemma qmax_0 a : (0 <= a)%Qc -> qmax a 0%Qc = a.
Proof. intros H. unfold qmax. destruct (Qclt_le_dec a 0); auto. exfalso. exact (Qclt_not_le _ _ q H). Qed.
Lemma fold_qmax l : forall a, (a <= fold_left qmax l a)%Qc /\ Forall (fun b => (b <= fold_left qmax l a)%Qc) l.
Proof.
  induction l as [|b l IH]; intros a; cbn [fold_left]; [split; [apply Qcle_refl|constructor]|].
  destruct (IH (qmax a b)) as [H F]. split.
  - eapply Qcle_trans; [|exact H]. apply qmax_l.
  - constructor; auto. eapply Qcle_trans; [|exact H]. apply qmax_r.
Qed.
Lemma ored_qmax l : Forall (fun a => (a <= filled 0%Qc (ored qmax None l))%Qc) l.
Proof.
  destruct l as [|a l]; [constructor|]. change (ored qmax None (a :: l)) with (ored qmax (Some a) l). rewrite ored_fold.
  destruct (fold_qmax l a) as [H F]. constructor; auto.
Qed.
Lemma ored_qmax_nonneg l x : Forall (fun a => (0 <= a)%Qc) l -> ored qmax None l = Some x -> (0 <= x)%Qc.
Proof.
  intros F. destruct l as [|a l]; [discriminate|]. change (ored qmax None (a :: l)) with (ored qmax (Some a) l). rewrite ored_fold. intros [= <-].
  apply Forall_cons_iff in F as [H _]. eapply Qcle_trans; [exact H|]. apply fold_qmax.
Qed.
Lemma oadd_0 a : oadd a (Some 0%Qc) = a.
Proof. destruct a as [a|]; auto. cbn. f_equal. apply Qcplus_0_r. Qed.
Lemma fold_oadd M l : forall a, fold_left oadd (map (fun s => Some (s / M)%Qc) l) (Some a) = Some (a + qsum l / M)%Qc.
Proof.
  induction l as [|b l IH]; intros a; cbn [fold_left map qsum fold_right oadd].
  - f_equal. unfold Qcdiv. rewrite Qcmult_0_l, Qcplus_0_r. reflexivity.
  - rewrite IH. f_equal. unfold Qcdiv. fold (qsum l). ring.
Qed.
Lemma ored_oadd M l : filled (Some 0%Qc) (ored oadd None (map (fun s => Some (s / M)%Qc) l)) = Some (qsum l / M)%Qc.
Proof.
  destruct l as [|a l]; cbn [map].
  - cbn. f_equal. unfold Qcdiv. rewrite Qcmult_0_l. reflexivity.
  - change (ored oadd None (?a :: ?l)) with (ored oadd (Some a) l). cbn [filled].
    rewrite ored_fold. cbn [filled]. rewrite fold_oadd. f_equal. unfold Qcdiv. cbn [qsum fold_right]. fold (qsum l). ring.
Qed.
Lemma qsum_zero l : Forall (fun a => (0 <= a)%Qc) l -> Forall (fun a => (a <= 0)%Qc) l -> qsum l = 0%Qc.
Proof.
  intros F G. induction l as [|a l IH]; cbn; auto. apply Forall_cons_iff in F as [F0 F]. apply Forall_cons_iff in G as [G0 G].
  fold (qsum l). rewrite IH by auto. rewrite Qcplus_0_r. apply Qcle_antisym; auto.
Qed.
Lemma pointing_map2 {A B C} (F : A -> B -> C) (g : Z -> B) idxs : forall (src : list A) o, length idxs = length src ->
  pointing idxs (map (fun sm => F (fst sm) (snd sm)) (combine src (map g idxs))) o = map (fun s => F s (g (Z.of_nat o))) (pointing idxs src o).
Proof.
  induction idxs as [|i idxs IH]; intros [|a src] o H; try discriminate; auto. cbn [map combine]. rewrite !pointing_cons.
  rewrite IH by (cbn in H; lia). destruct (Z.eqb_spec i (Z.of_nat o)) as [->|D]; reflexivity.
Qed.
Lemma pointing_Forall {A} (P : A -> Prop) idxs src o : Forall P src -> Forall P (pointing idxs src o).
Proof. intros H. rewrite Forall_forall in *. intros x Hx. apply pointing_In in Hx as (t & _ & Ht). apply H. eapply nth_error_In; eauto. Qed.

Lemma scatter_okP2 {A} (op : A -> A -> A) fill um O idxs (src : list A) jidxs junk :
  um = true \/ junk = [] ->
  op fill fill = fill -> (forall o x, ored op None (pointing idxs src o) = Some x -> op x fill = x) ->
  length idxs = length src -> length jidxs = length junk -> Forall (within O) (idxs ++ jidxs) ->
  exists out, scatter op fill um (length src) O (idxs ++ jidxs) (src ++ junk) = Ok out /\ length out = O /\
    forall o, o < O -> nth_error out o = Some (filled fill (ored op None (pointing idxs src o))).
Proof.
  intros [->| ->] Hn Hx HL HJ HF; [apply scatter_okP; auto|]. destruct jidxs; [|discriminate]. rewrite !app_nil_r in *. apply scatter_full; auto.
Qed.

Lemma logsumexp_ok um O idxs src jidxs junk :
  um = true \/ junk = [] ->
  length idxs = length src -> length jidxs = length junk -> Forall (within O) (idxs ++ jidxs) -> Forall (fun a => (0 <= a)%Qc) src ->
  exists out, scatter_logsumexp um (length src) O (idxs ++ jidxs) (src ++ junk) None = Ok out /\ length out = O /\
    forall o, o < O -> nth_error out o = Some (Some (qsum (pointing idxs src o))).
Proof.
  intros HM HL HJ HF HP.
  destruct (scatter_okP2 qmax 0%Qc um O idxs src jidxs junk HM) as (mx & E & L & N); auto.
  { intros o x Hx. apply qmax_0. eapply ored_qmax_nonneg; [|exact Hx]. apply pointing_Forall; auto. }
  set (g := fun i => nth (Z.to_nat i) mx 0%Qc).
  assert (EG : mapM (gather1 mx) (idxs ++ jidxs) = Ok (map g idxs ++ map g jidxs)).
  { rewrite <- map_app. apply mapM_ok_map. intros i Hi. rewrite Forall_forall in HF. specialize (HF i Hi). unfold within in HF.
    replace i with (Z.of_nat (Z.to_nat i)) at 1 by lia. apply gather1_nth. lia. }
  unfold scatter_logsumexp. rewrite E. cbn [bind]. rewrite EG. cbn [bind].
  rewrite combine_app' by (rewrite map_length; auto). rewrite map_app.
  set (S := map (fun sm => lsub (fst sm) (snd sm)) (combine src (map g idxs))).
  set (J := map (fun sm => lsub (fst sm) (snd sm)) (combine junk (map g jidxs))).
  assert (LS : length S = length src) by (unfold S; rewrite map_length, combine_length, map_length; lia).
  assert (LJ : length J = length junk) by (unfold J; rewrite map_length, combine_length, map_length; lia).
  rewrite <- LS. destruct (scatter_ok2 oadd (Some 0%Qc) um O idxs S jidxs J) as (t & Et & Lt & Nt); [|apply oadd_0|lia|lia|auto|].
  { destruct HM as [->| ->]; auto. }
  rewrite Et. cbn [bind]. eexists. split; [reflexivity|]. split; [rewrite map_length, combine_length; lia|].
  intros o Ho. rewrite nth_error_map, nth_error_combine, (N o Ho), (Nt o Ho). cbn [option_map fst snd]. f_equal.
  unfold S. rewrite (pointing_map2 lsub g) by auto. unfold g. rewrite Nat2Z.id. rewrite (nth_error_nth _ _ _ (N o Ho)).
  set (P := pointing idxs src o). pose proof (ored_qmax P) as Q. set (M := filled 0%Qc (ored qmax None P)) in *. clearbody M.
  assert (PP : Forall (fun a => (0 <= a)%Qc) P) by (apply pointing_Forall; auto).
  destruct (Qc_eq_dec M 0) as [->|D].
  - f_equal. symmetry. apply qsum_zero; auto.
  - replace (map (fun s => lsub s M) P) with (map (fun s => Some (s / M)%Qc) P).
    + rewrite ored_oadd. f_equal. apply Qcmult_div_r' || (unfold Qcdiv; rewrite <- Qcmult_assoc, (Qcmult_comm (/ M)), Qcmult_inv_r by auto; apply Qcmult_1_r).
    + apply map_ext. intros s. unfold lsub. destruct (Qc_eq_dec M 0); [contradiction|auto].
Qed.

Lemma Q2Qc_S n : (Q2Qc (inject_Z (Z.of_nat (S n))) = 1 + Q2Qc (inject_Z (Z.of_nat n)))%Qc.
Proof.
  apply Qc_is_canon. rewrite Nat2Z.inj_succ, <- Z.add_1_l, inject_Z_plus.
  change (Qred (inject_Z 1 + inject_Z (Z.of_nat n)) == Qred (Qred 1 + Qred (inject_Z (Z.of_nat n))))%Q.
  rewrite !Qred_correct. reflexivity.
Qed.
Lemma fold_ones l : forall n, Forall (eq 1%Qc) l -> fold_left Qcplus l (Q2Qc (inject_Z (Z.of_nat n))) = Q2Qc (inject_Z (Z.of_nat (n + length l))).
Proof.
  induction l as [|a l IH]; intros n F; cbn [fold_left length]; [rewrite Nat.add_0_r; auto|]. apply Forall_cons_iff in F as [<- F].
  rewrite Qcplus_comm, <- Q2Qc_S, IH by auto. do 3 f_equal. lia.
Qed.
Lemma ored_ones l : Forall (eq 1%Qc) l -> filled 1%Qc (ored Qcplus None l) = count_of l.
Proof.
  intros F. destruct l as [|a l]; [reflexivity|]. change (ored Qcplus None (a :: l)) with (ored Qcplus (Some a) l). rewrite ored_fold.
  apply Forall_cons_iff in F as [<- F]. cbn [filled]. change 1%Qc with (Q2Qc (inject_Z (Z.of_nat 1))) at 1. rewrite fold_ones by auto.
  unfold count_of. cbn [length]. do 3 f_equal.
Qed.
Lemma pointing_length {A B} idxs : forall (src : list A) (src' : list B) o, length src = length src' -> length (pointing idxs src o) = length (pointing idxs src' o).
Proof.
  induction idxs as [|i idxs IH]; intros [|a src] [|b src'] o H; try discriminate; auto. rewrite !pointing_cons.
  destruct (i =? Z.of_nat o)%Z; cbn [length]; rewrite (IH src src') by (cbn in H; lia); auto.
Qed.

Lemma logmeanexp_ok um O idxs src jidxs junk :
  um = true \/ junk = [] ->
  length idxs = length src -> length jidxs = length junk -> Forall (within O) (idxs ++ jidxs) -> Forall (fun a => (0 <= a)%Qc) src ->
  exists out, scatter_logmeanexp um (length src) O (idxs ++ jidxs) (src ++ junk) None = Ok out /\ length out = O /\
    forall o, o < O -> nth_error out o = Some (Some (qsum (pointing idxs src o) / count_of (pointing (idxs ++ jidxs) (src ++ junk) o))%Qc).
Proof.
  intros HM HL HJ HF HP. destruct (logsumexp_ok um O idxs src jidxs junk HM HL HJ HF HP) as (y & Ey & Ly & Ny).
  unfold scatter_logmeanexp.
  assert (C : exists c, scatter Qcplus 1%Qc um (length src) O (idxs ++ jidxs) (repeat 1%Qc (length (idxs ++ jidxs))) = Ok c /\ length c = O /\
     forall o, o < O -> nth_error c o = Some (count_of (pointing (idxs ++ jidxs) (src ++ junk) o))).
  { set (n := length (idxs ++ jidxs)). unfold scatter.
    replace (if um then masked 1%Qc (length src) (repeat 1%Qc n) else repeat 1%Qc n) with (repeat 1%Qc n).
    - destruct (backend_ok Qcplus 1%Qc O (idxs ++ jidxs) (repeat 1%Qc n)) as (c & E & L & N); [rewrite repeat_length; auto|auto|].
      exists c. split; auto. split; auto. intros o Ho. rewrite (N o Ho). rewrite ored_ones by apply pointing_repeat. f_equal. unfold count_of.
      rewrite (pointing_length (idxs ++ jidxs) (src ++ junk) (repeat 1%Qc n)); auto. rewrite repeat_length. unfold n. rewrite !app_length. lia.
    - destruct um; auto. apply nth_error_ext. intros i. rewrite masked_nth. destruct (Nat.lt_ge_cases i n).
      + rewrite nth_error_repeat' by auto. cbn [option_map]. destruct (i <? length src); auto.
      + rewrite (proj2 (nth_error_None _ _)) by (rewrite repeat_length; auto). reflexivity. }
  destruct C as (c & Ec & Lc & Nc). rewrite Ec. cbn [bind]. rewrite Ey. cbn [bind]. eexists. split; [reflexivity|].
  split; [rewrite map_length, combine_length; lia|]. intros o Ho. rewrite nth_error_map, nth_error_combine, (Ny o Ho), (Nc o Ho). reflexivity.
Qed.

(** * masks *)
Lemma nth_error_pointing_one {A} (order : list nat) : forall (src : list A) k i a, NoDup order ->
  nth_error order k = Some i -> nth_error src k = Some a -> pointing (map Z.of_nat order) src i = [a].
Proof.
  induction order as [|x order IH]; intros [|b src] [|k] i a ND Hk Ha; try discriminate.
  - injection Hk as ->. injection Ha as ->. cbn [map]. rewrite pointing_cons, Z.eqb_refl. f_equal. inversion_clear ND as [|? ? NI ND'].
    destruct (pointing (map Z.of_nat order) src i) as [|y l] eqn:E; auto. exfalso. apply NI.
    assert (H : In y (pointing (map Z.of_nat order) src i)) by (rewrite E; left; auto).
    apply pointing_In in H as (t & H & _). apply nth_error_In, in_map_iff in H as (j & Ej & Hj). apply Nat2Z.inj in Ej. subst. auto.
  - cbn in Hk, Ha. cbn [map]. rewrite pointing_cons. inversion_clear ND as [|? ? NI ND'].
    destruct (Z.eqb_spec (Z.of_nat x) (Z.of_nat i)) as [E|_]; [|eapply IH; eauto]. exfalso. apply NI.
    apply Nat2Z.inj in E. subst. eapply nth_error_In; eauto.
Qed.
Lemma nth_error_pointing_none {A} (order : list nat) (src : list A) i : ~ In i order -> pointing (map Z.of_nat order) src i = [].
Proof.
  intros H. destruct (pointing (map Z.of_nat order) src i) as [|y l] eqn:E; auto. exfalso. apply H.
  assert (Hy : In y (pointing (map Z.of_nat order) src i)) by (rewrite E; left; auto).
  apply pointing_In in Hy as (t & Ht & _). apply nth_error_In, in_map_iff in Ht as (j & Ej & Hj). apply Nat2Z.inj in Ej. subst. auto.
Qed.
Lemma order_within n order : Forall (fun i => i < n) order -> Forall (within n) (map Z.of_nat order).
Proof. intros H. apply Forall_forall. intros z Hz. apply in_map_iff in Hz as (i & <- & Hi). rewrite Forall_forall in H. specialize (H i Hi). unfold within. lia. Qed.

Definition inb (i : nat) (l : list nat) : bool := existsb (Nat.eqb i) l.
Lemma inb_In i l : inb i l = true <-> In i l.
Proof. unfold inb. rewrite existsb_exists. split; [intros (x & H & E); apply Nat.eqb_eq in E; subst; auto|intros H; exists i; split; auto; apply Nat.eqb_refl]. Qed.
Lemma inb_not_In i l : inb i l = false <-> ~ In i l.
Proof. rewrite <- inb_In. destruct (inb i l); split; congruence. Qed.

Lemma scatter_mask n order k : NoDup order -> Forall (fun i => i < n) order ->
  backend_scatter orb false n (map Z.of_nat order) (map (fun t => t <? k) (seq 0 (length order))) = Ok (map (fun i => inb i (firstn k order)) (seq 0 n)).
Proof.
  intros ND F. destruct (backend_ok orb false n (map Z.of_nat order) (map (fun t => t <? k) (seq 0 (length order)))) as (out & E & L & N).
  { rewrite !map_length, seq_length. reflexivity. } { apply order_within; auto. }
  rewrite E. f_equal. apply nth_error_ext. intros i. destruct (Nat.lt_ge_cases i n) as [Hi|Hi].
  - rewrite (N i Hi), nth_error_map, nth_error_seq by auto. cbn [option_map plus]. f_equal.
    destruct (in_dec Nat.eq_dec i order) as [I|I].
    + apply In_nth_error in I as (t & Ht). assert (Lt : t < length order) by (apply nth_error_Some; congruence).
      rewrite (nth_error_pointing_one order _ t i (t <? k)); auto; [|rewrite nth_error_map, nth_error_seq by auto; reflexivity].
      cbn [ored fold_left filled]. symmetry. destruct (Nat.ltb_spec t k).
      * apply inb_In. apply (nth_error_In _ t). rewrite nth_error_firstn' by auto. auto.
      * apply inb_not_In. intros H'. apply In_nth_error in H' as (t' & Ht'). assert (t' < k).
        { apply nth_error_Some_lt in Ht'. rewrite firstn_length in Ht'. lia. }
        rewrite nth_error_firstn' in Ht' by auto. assert (t = t').
        { eapply (proj1 (NoDup_nth_error order) ND); [auto|congruence]. }
        lia.
    + rewrite nth_error_pointing_none by auto. cbn [ored fold_left filled]. symmetry. apply inb_not_In. intros H. apply I. eapply In_firstn; eauto.
  - rewrite !(proj2 (nth_error_None _ _)); auto; [rewrite map_length, seq_length; auto|lia].
Qed.

Section Mask.
Variables (vals : list Z) (order : list nat) (k : nat).
Hypothesis (ND : NoDup order) (F : Forall (fun i => i < length vals) order).
Let mask := map (fun i => inb i (firstn k order)) (seq 0 (length vals)).
Lemma mask_nth i : i < length vals -> nth_error mask i = Some (inb i (firstn k order)).
Proof. intros H. unfold mask. rewrite nth_error_map, nth_error_seq by auto. reflexivity. Qed.
Lemma mask_lt i b : nth_error mask i = Some b -> i < length vals /\ b = inb i (firstn k order).
Proof. intros H. pose proof (nth_error_Some_lt _ _ _ H) as L. unfold mask in L. rewrite map_length, seq_length in L. split; auto. rewrite mask_nth in H by auto. congruence. Qed.

Lemma selected_gen (l : list Z) : forall s (f : nat -> bool), 
  selected l (map f (seq s (length l))) = map (fun i => nth (i - s) l 0%Z) (filter f (seq s (length l))).
Proof.
  induction l as [|a l IH]; intros s f; auto. cbn [length seq map]. unfold selected in *. cbn [combine filter snd].
  assert (G : map (fun i => nth (i - S s) l 0%Z) (filter f (seq (S s) (length l))) = map (fun i => nth (i - s) (a :: l) 0%Z) (filter f (seq (S s) (length l)))).
  { apply map_ext_in. intros i Hi. apply filter_In in Hi as [Hi _]. apply in_seq in Hi. destruct (i - s) as [|d] eqn:D; [lia|]. cbn. f_equal. lia. }
  destruct (f s); cbn [map fst]; rewrite IH, G; [f_equal; rewrite Nat.sub_diag; reflexivity|reflexivity].
Qed.
Lemma selected_perm : Permutation (selected vals mask) (map (fun i => nth i vals 0%Z) (firstn k order)).
Proof.
  unfold mask. rewrite (selected_gen vals 0 (fun i => inb i (firstn k order))).
  rewrite (map_ext (fun i => nth (i - 0) vals 0%Z) (fun i => nth i vals 0%Z)) by (intros; rewrite Nat.sub_0_r; auto).
  apply Permutation_map. apply NoDup_Permutation.
  - apply NoDup_filter, seq_NoDup.
  - eapply NoDup_app_l. rewrite firstn_skipn. exact ND.
  - intros i. rewrite filter_In, inb_In, in_seq. split; [tauto|]. intros H. split; auto. apply In_firstn in H. rewrite Forall_forall in F. specialize (F i H). lia.
Qed.
End Mask.
Lemma zsum_perm l l' : Permutation l l' -> zsum l = zsum l'.
Proof. intros H. induction H; unfold zsum in *; cbn; lia. Qed.

Lemma top_k_ok vals k indices : top_indices vals k indices ->
  exists mask, top_k_mask (length vals) indices = Ok mask /\ length mask = length vals /\ length (selected vals mask) = k /\ top_set vals mask.
Proof.
  intros (L & ND & F & T). unfold top_k_mask.
  replace (map (fun _ : nat => true) indices) with (map (fun t => t <? length indices) (seq 0 (length indices))).
  - rewrite scatter_mask by auto. eexists. split; [reflexivity|]. split; [rewrite map_length, seq_length; auto|]. split.
    + rewrite (Permutation_length (selected_perm vals indices (length indices) ND F)). rewrite map_length, firstn_all. auto.
    + intros i j a b Hi Hj Ha Hb. apply mask_lt in Hi as [Li Hi]. apply mask_lt in Hj as [Lj Hj].
      rewrite firstn_all in *. symmetry in Hi, Hj. apply inb_In in Hi. apply inb_not_In in Hj. specialize (T i j Hi Lj Hj).
      rewrite (nth_error_nth _ _ _ Ha), (nth_error_nth _ _ _ Hb) in T. auto.
  - apply nth_error_ext. intros t. rewrite !nth_error_map. destruct (Nat.lt_ge_cases t (length indices)) as [Ht|Ht].
    + rewrite nth_error_seq by auto. destruct (nth_error indices t) eqn:E; [|apply nth_error_None in E; lia]. cbn. f_equal. apply Nat.ltb_lt. auto.
    + rewrite !(proj2 (nth_error_None _ _)); auto. rewrite seq_length. auto.
Qed.

(** * top-p *)
Lemma zsum_cons a l : zsum (a :: l) = (a + zsum l)%Z.
Proof. reflexivity. Qed.
Lemma cumsum_length a l : length (cumsum a l) = length l.
Proof. revert a. induction l as [|b l IH]; intros a; cbn; auto. Qed.
Lemma cumsum_above p l : forall a, Forall (fun b => (0 <= b)%Z) l -> (p < a)%Z -> map (fun c => (c <=? p)%Z) (cumsum a l) = map (fun t => t <? 0) (seq 0 (length l)).
Proof.
  enough (G : forall a s, Forall (fun b => (0 <= b)%Z) l -> (p < a)%Z -> map (fun c => (c <=? p)%Z) (cumsum a l) = map (fun t => t <? 0) (seq s (length l))) by auto.
  induction l as [|b l IH]; intros a s F H; auto. apply Forall_cons_iff in F as [Hb F]. cbn [cumsum map length seq]. f_equal; [|apply IH; auto; lia].
  rewrite (proj2 (Z.leb_gt _ _)) by lia. reflexivity.
Qed.
Lemma seq_lt_S k n : map (fun t => t <? S k) (seq 0 (S n)) = true :: map (fun t => t <? k) (seq 0 n).
Proof. cbn [seq map]. f_equal. rewrite <- seq_shift, map_map. apply map_ext. intros t. reflexivity. Qed.
Lemma cumsum_prefix p l : forall a, Forall (fun b => (0 <= b)%Z) l -> (a <= p)%Z ->
  exists k, k <= length l /\ map (fun c => (c <=? p)%Z) (cumsum a l) = map (fun t => t <? k) (seq 0 (length l)) /\
    (a + zsum (firstn k l) <= p)%Z /\ (k = length l \/ (k < length l /\ (p < a + zsum (firstn (S k) l))%Z)).
Proof.
  induction l as [|b l IH]; intros a F H.
  - exists 0. cbn. repeat split; auto. lia.
  - apply Forall_cons_iff in F as [Hb F]. destruct (Z_le_gt_dec (a + b) p) as [L|L].
    + destruct (IH (a + b)%Z F L) as (k & Hk & E & S1 & S2). exists (S k). cbn [length]. split; [lia|]. split; [|split].
      * cbn [cumsum map]. rewrite E, (proj2 (Z.leb_le _ _)) by auto. rewrite seq_lt_S. reflexivity.
      * cbn [firstn]. rewrite zsum_cons. lia.
      * destruct S2 as [->|[S2 S3]]; [left; auto|right]. split; [lia|]. change (firstn (S (S k)) (b :: l)) with (b :: firstn (S k) l). rewrite zsum_cons. lia.
    + exists 0. cbn [length]. split; [lia|]. split; [|split].
      * cbn [cumsum map seq]. rewrite (proj2 (Z.leb_gt _ _)) by lia. f_equal.
        rewrite (cumsum_above p l (a + b)%Z F) by lia. rewrite <- seq_shift, map_map. apply map_ext. reflexivity.
      * cbn. lia.
      * right. split; [lia|]. cbn [firstn]. rewrite zsum_cons. cbn. lia.
Qed.

Lemma Forall2_one_l {X Y} (R : X -> Y -> Prop) x ys : Forall2 R [x] ys -> exists y, ys = [y] /\ R x y.
Proof. intros H. inversion H as [|? y ? ys' Hr H']. inversion H'. eauto. Qed.
Lemma shift_mask n k : shift_right false true 1 (Scalar true) [n] [map (fun t => t <? k) (seq 0 n)] = Ok ([n], [map (fun t => t <? S k) (seq 0 n)]).
Proof.
  set (m := map (fun t => t <? k) (seq 0 n)). assert (Lm : length m = n) by (unfold m; rewrite map_length, seq_length; auto).
  destruct (shift_right_ok false true 1 true [m] [n] [m]) as (ys & out & E & P & M).
  { split; [cbn; rewrite Lm; auto|]. constructor; [|constructor]. split; [exists []; rewrite app_nil_r; auto|]. cbn. lia. }
  rewrite E. f_equal. f_equal. apply Forall2_one_l in M as (y & -> & M).
  destruct P as (PL & PF). apply Forall2_one_l in PF as (row & -> & (junk & ->) & HL).
  f_equal. destruct M as [My Mn]. cbn in HL. rewrite Nat.max_0_r, app_length in HL.
  assert (junk = []) by (destruct junk; auto; cbn in HL; lia). subst junk. rewrite app_nil_r.
  apply nth_error_ext. intros t. destruct (Nat.lt_ge_cases t n) as [Ht|Ht].
  - rewrite Mn by lia. rewrite nth_error_map, nth_error_seq by auto. cbn [option_map plus]. f_equal. unfold ConvSpec.frame.
    destruct t as [|t]; [reflexivity|]. rewrite (proj2 (Z.ltb_ge _ _)) by lia. replace (Z.to_nat _) with t by lia.
    assert (nth_error m t = Some (t <? k)) by (unfold m; rewrite nth_error_map, nth_error_seq by lia; reflexivity).
    rewrite (nth_error_nth _ _ _ H). reflexivity.
  - rewrite !(proj2 (nth_error_None _ _)); auto; [rewrite map_length, seq_length; auto|lia].
Qed.

Lemma firstn_map_nth (f : nat -> Z) l k : firstn k (map f l) = map f (firstn k l).
Proof. apply firstn_map. Qed.

Lemma selected_negb (f : nat -> bool) (l : list Z) : forall ss, selected l (map (fun i => negb (f i)) ss) = unselected l (map f ss).
Proof.
  unfold selected, unselected. induction l as [|a l IH]; intros [|s ss]; auto. cbn [map combine filter snd].
  destruct (f s); cbn [negb map fst]; rewrite IH; auto.
Qed.
Section TopP.
Variables (probs : list Z) (order : list nat).
Hypothesis D : descending probs order.
Let vs := map (fun i => nth i probs 0%Z) order.
Let Hperm : Permutation (seq 0 (length probs)) order := proj1 D.
Lemma order_ND : NoDup order.
Proof. eapply Permutation_NoDup; [exact Hperm|]. apply seq_NoDup. Qed.
Lemma order_F : Forall (fun i => i < length probs) order.
Proof. apply Forall_forall. intros i Hi. apply (Permutation_in _ (Permutation_sym Hperm)) in Hi. apply in_seq in Hi. lia. Qed.
Lemma order_len : length order = length probs.
Proof. rewrite <- (Permutation_length Hperm), seq_length. auto. Qed.
Definition maskk k := map (fun i => inb i (firstn k order)) (seq 0 (length probs)).
Lemma sel_perm k : Permutation (selected probs (maskk k)) (firstn k vs).
Proof. unfold vs. rewrite firstn_map. apply selected_perm; auto using order_ND, order_F. Qed.
Lemma unsel_perm k : Permutation (unselected probs (maskk k)) (skipn k vs).
Proof.
  replace (unselected probs (maskk k)) with (selected probs (map (fun i => negb (inb i (firstn k order))) (seq 0 (length probs)))).
  - rewrite (selected_gen probs 0 (fun i => negb (inb i (firstn k order)))). unfold vs. rewrite skipn_map.
    rewrite (map_ext (fun i => nth (i - 0) probs 0%Z) (fun i => nth i probs 0%Z)) by (intros; rewrite Nat.sub_0_r; auto).
    apply Permutation_map. pose proof order_ND as ND. apply NoDup_Permutation.
    + apply NoDup_filter, seq_NoDup.
    + eapply NoDup_app_r. rewrite firstn_skipn. exact ND.
    + intros i. rewrite filter_In, Bool.negb_true_iff, inb_not_In. split.
      * intros [H1 H2]. apply (Permutation_in _ Hperm) in H1. rewrite <- (firstn_skipn k order) in H1. apply in_app_iff in H1. tauto.
      * intros H. split.
        -- apply (Permutation_in _ (Permutation_sym Hperm)). eapply In_skipn; eauto.
        -- intros H'. rewrite <- (firstn_skipn k order) in ND. eapply NoDup_disj; eauto.
  - apply selected_negb.
Qed.
Lemma vs_sorted : StronglySorted (fun a b => (b <= a)%Z) vs.
Proof.
  unfold vs. pose proof (proj2 D) as S. clear Hperm vs D. induction S as [|i l S IH F]; cbn; constructor; auto.
  apply Forall_forall. intros b Hb. apply in_map_iff in Hb as (j & <- & Hj). rewrite Forall_forall in F. auto.
Qed.
Lemma sorted_split (l : list Z) k : StronglySorted (fun a b => (b <= a)%Z) l -> forall a b, In a (firstn k l) -> In b (skipn k l) -> (b <= a)%Z.
Proof.
  intros S. revert k. induction S as [|x l S IH F]; intros [|k] a b Ha Hb; cbn in *; try tauto.
  destruct Ha as [->|Ha]; [|eapply IH; eauto]. rewrite Forall_forall in F. apply F. eapply In_skipn; eauto.
Qed.
Lemma maskk_top k : top_set probs (maskk k).
Proof.
  intros i j a b Hi Hj Ha Hb. eapply (sorted_split vs k); [apply vs_sorted| |].
  - eapply Permutation_in; [apply sel_perm|]. unfold selected. apply in_map_iff. exists (a, true). split; auto. apply filter_In. split; auto.
    apply (nth_error_In _ i). rewrite nth_error_combine, Ha, Hi. reflexivity.
  - eapply Permutation_in; [apply unsel_perm|]. unfold unselected. apply in_map_iff. exists (b, false). split; auto. apply filter_In. split; auto.
    apply (nth_error_In _ j). rewrite nth_error_combine, Hb, Hj. reflexivity.
Qed.

Lemma top_p_form unit p one_more : Forall (fun a => (0 <= a)%Z) probs -> (0 <= p <= unit)%Z ->
  exists k, k <= length vs /\ (zsum (firstn k vs) <= p)%Z /\ (k = length vs \/ (k < length vs /\ (p < zsum (firstn (S k) vs))%Z)) /\
    top_p_mask unit probs p one_more order = Ok (maskk (if one_more then S k else k)).
Proof.
  intros F Hp. assert (Fv : Forall (fun a => (0 <= a)%Z) vs).
  { unfold vs. apply Forall_forall. intros x Hx. apply in_map_iff in Hx as (i & <- & Hi). rewrite Forall_forall in F.
    destruct (Nat.lt_ge_cases i (length probs)) as [L|L]; [apply F, nth_In; auto|rewrite nth_overflow by auto; lia]. }
  destruct (cumsum_prefix p vs 0 Fv ltac:(lia)) as (k & Hk & E & S1 & S2). exists k. cbn [Z.add] in S1, S2. split; auto. split; auto. split; auto.
  unfold top_p_mask. rewrite (proj2 (Z.leb_le 0 p)), (proj2 (Z.leb_le p unit)) by lia. cbn [andb assert_ bind]. fold vs. rewrite E.
  assert (Lv : length vs = length order) by (unfold vs; apply map_length). rewrite Lv.
  destruct one_more.
  - rewrite map_length, seq_length, shift_mask. cbn [bind nth]. apply scatter_mask; auto using order_ND, order_F.
  - cbn [bind]. apply scatter_mask; auto using order_ND, order_F.
Qed.
End TopP.

Lemma top_p_less unit probs p order : descending probs order -> Forall (fun a => (0 <= a)%Z) probs -> (0 <= p <= unit)%Z ->
  exists mask, top_p_mask unit probs p false order = Ok mask /\ length mask = length probs /\ top_set probs mask /\
    (zsum (selected probs mask) <= p)%Z /\
    (unselected probs mask = [] \/
     exists b, In b (unselected probs mask) /\ Forall (fun b' => (b' <= b)%Z) (unselected probs mask) /\ (p < zsum (selected probs mask) + b)%Z).
Proof.
  intros D F Hp. destruct (top_p_form probs order D unit p false F Hp) as (k & Hk & S1 & S2 & E). cbn iota in E.
  exists (maskk probs order k). split; auto. split; [unfold maskk; rewrite map_length, seq_length; auto|]. split; [apply maskk_top; auto|].
  set (vs := map (fun i => nth i probs 0%Z) order) in *. pose proof (sel_perm probs order D k) as P1. pose proof (unsel_perm probs order D k) as P2. fold vs in P1, P2.
  rewrite (zsum_perm _ _ P1). split; auto. destruct S2 as [->|[L S2]].
  - left. rewrite skipn_all in P2. apply Permutation_nil. apply Permutation_sym. auto.
  - right. destruct (nth_error vs k) as [b|] eqn:Eb; [|apply nth_error_None in Eb; lia].
    assert (Sk : skipn k vs = b :: skipn (S k) vs). { clear -Eb. revert k Eb. induction vs as [|v vs IH]; intros [|k] E; try discriminate; cbn in *; [congruence|auto]. }
    assert (Sf : firstn (S k) vs = firstn k vs ++ [b]). { clear -Eb. revert k Eb. induction vs as [|v vs IH]; intros [|k] E; try discriminate; cbn in *; [congruence|f_equal; apply IH; auto]. }
    exists b. split; [|split].
    + eapply Permutation_in; [apply Permutation_sym; exact P2|]. rewrite Sk. left. auto.
    + eapply Permutation_Forall; [apply Permutation_sym; exact P2|]. rewrite Sk.
      pose proof (vs_sorted probs order D) as SS. fold vs in SS. rewrite <- (firstn_skipn k vs) in SS. rewrite Sk in SS.
      assert (SS' : StronglySorted (fun a b => (b <= a)%Z) (b :: skipn (S k) vs)). { clear -SS. induction (firstn k vs) as [|x l IH]; auto. apply IH. cbn in SS. inversion SS; auto. }
      inversion SS' as [|? ? Q1 Q2]; subst. constructor; [lia|]. exact Q2.
    + rewrite Sf in S2. rewrite (zsum_perm (firstn k vs ++ [b]) (b :: firstn k vs)) in S2 by (apply Permutation_sym, Permutation_cons_append).
      rewrite zsum_cons in S2. lia.
Qed.

Lemma top_p_more unit probs p order : descending probs order -> Forall (fun a => (0 <= a)%Z) probs -> (0 <= p <= unit)%Z -> probs <> [] ->
  exists mask, top_p_mask unit probs p true order = Ok mask /\ length mask = length probs /\ top_set probs mask /\
    (exists a, In a (selected probs mask) /\ Forall (fun a' => (a <= a')%Z) (selected probs mask) /\ (zsum (selected probs mask) - a <= p)%Z) /\
    (unselected probs mask = [] \/ (p < zsum (selected probs mask))%Z).
Proof.
  intros D F Hp Hne. destruct (top_p_form probs order D unit p true F Hp) as (k & Hk & S1 & S2 & E). cbn iota in E.
  exists (maskk probs order (S k)). split; auto. split; [unfold maskk; rewrite map_length, seq_length; auto|]. split; [apply maskk_top; auto|].
  set (vs := map (fun i => nth i probs 0%Z) order) in *. pose proof (sel_perm probs order D (S k)) as P1. pose proof (unsel_perm probs order D (S k)) as P2. fold vs in P1, P2.
  rewrite (zsum_perm _ _ P1).
  assert (Lv : length vs = length probs) by (unfold vs; rewrite map_length; apply order_len; auto).
  assert (Fv : Forall (fun a => (0 <= a)%Z) vs).
  { unfold vs. apply Forall_forall. intros x Hx. apply in_map_iff in Hx as (i & <- & Hi). rewrite Forall_forall in F.
    pose proof (order_F probs order D) as OF. rewrite Forall_forall in OF. apply F, nth_In, OF. auto. }
  assert (Hv : vs <> []) by (destruct vs; [destruct probs; [contradiction|discriminate]|discriminate]).
  pose proof (vs_sorted probs order D) as SS. fold vs in SS. clearbody vs. split.
  - assert (X : exists l a, firstn (S k) vs = l ++ [a] /\ (zsum l <= p)%Z).
    { destruct S2 as [->|[L S2]].
      - rewrite firstn_all2 by lia. destruct (exists_last Hv) as (l & a & ->). exists l, a. split; auto.
        rewrite firstn_all in S1. rewrite (zsum_perm (l ++ [a]) (a :: l)) in S1 by (apply Permutation_sym, Permutation_cons_append).
        rewrite zsum_cons in S1. apply Forall_app in Fv as [_ Fa]. apply Forall_cons_iff in Fa as [Fa _]. lia.
      - destruct (nth_error vs k) as [b|] eqn:Eb; [|apply nth_error_None in Eb; lia]. exists (firstn k vs), b. split; auto.
        clear -Eb. revert k Eb. induction vs as [|v vs IH]; intros [|k] E; try discriminate; cbn in *; [congruence|f_equal; apply IH; auto]. }
    destruct X as (l & a & X1 & X2). exists a. rewrite X1 in *. split; [|split].
    + eapply Permutation_in; [apply Permutation_sym; exact P1|]. apply in_or_app. right. left. auto.
    + eapply Permutation_Forall; [apply Permutation_sym; exact P1|]. apply Forall_app. split; [|constructor; [lia|constructor]].
      rewrite <- (firstn_skipn (S k) vs), X1, <- app_assoc in SS. clear -SS. induction l as [|x l IH]; constructor.
      * cbn in SS. inversion SS as [|? ? Q1 Q2]; subst. rewrite Forall_forall in Q2. apply Q2. apply in_or_app. right. left. auto.
      * apply IH. cbn in SS. inversion SS; auto.
    + rewrite (zsum_perm (l ++ [a]) (a :: l)) by (apply Permutation_sym, Permutation_cons_append). rewrite zsum_cons. lia.
  - destruct S2 as [->|[L S2]]; [left|right; auto]. rewrite skipn_all2 in P2 by lia. apply Permutation_nil. apply Permutation_sym. auto.
Qed.
