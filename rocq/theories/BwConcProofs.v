(** Proofs for C69: the atomic updates in all interleavings. *)
From Coq Require Import Permutation.
From Verif Require Import Base ListLemmas FsaModel BwModel BwSpec.
Local Open Scope nat_scope.

(* ---------- set_nth ---------- *)
Section SetNth.
Context {L : Type}.
Lemma set_nth_split (ls : list L) i l : nth_error ls i = Some l -> exists l1 l2, ls = l1 ++ l :: l2 /\ length l1 = i /\ forall l', set_nth i l' ls = l1 ++ l' :: l2.
Proof.
  intros H. destruct (nth_error_split ls i H) as (l1&l2&->&<-). exists l1, l2. split; [reflexivity|]. split; [reflexivity|]. intros l'. unfold set_nth.
  rewrite firstn_app, firstn_all, Nat.sub_diag. cbn [firstn]. rewrite app_nil_r. f_equal. f_equal.
  rewrite skipn_app, skipn_all2 by lia. replace (S (length l1) - length l1) with 1 by lia. reflexivity.
Qed.
End SetNth.

(* ---------- runs ---------- *)
Section Runs.
Context {M L : Type} (step : M -> L -> M -> L -> Prop) (finished : L -> Prop).
(** an invariant of memory and threads *)
Lemma run_inv (I : M -> list L -> Prop) :
  (forall m l1 l l2 m' l', I m (l1 ++ l :: l2) -> step m l m' l' -> I m' (l1 ++ l' :: l2)) ->
  forall m ls m' ls', run step m ls m' ls' -> I m ls -> I m' ls'.
Proof.
  intros HS m ls m' ls' HR. induction HR as [|m ls i l m1 l1 m2 ls2 Hi Hs HR IH]; [auto|]. intros HI. apply IH.
  destruct (set_nth_split ls i l Hi) as (a&b&->&_&E). rewrite E. eauto.
Qed.
Lemma run_trans m1 l1 m2 l2 m3 l3 : run step m1 l1 m2 l2 -> run step m2 l2 m3 l3 -> run step m1 l1 m3 l3.
Proof. intros H. induction H; [auto|]. intros G. eapply run_step; eauto. Qed.
(** one thread alone *)
Inductive alone : M -> L -> M -> L -> Prop :=
| alone_end m l : alone m l m l
| alone_step m l m1 l1 m2 l2 : step m l m1 l1 -> alone m1 l1 m2 l2 -> alone m l m2 l2.
Lemma run_alone m l m' l' : alone m l m' l' -> forall a b, run step m (a ++ l :: b) m' (a ++ l' :: b).
Proof.
  induction 1 as [|m l m1 l1 m2 l2 Hs HA IH]; intros a b; [constructor|]. eapply (run_step _ _ _ (length a) l); [|exact Hs|].
  - rewrite nth_error_app2 by lia. now rewrite Nat.sub_diag.
  - destruct (set_nth_split (a ++ l :: b) (length a) l) as (a'&b'&E&Hl&Es); [rewrite nth_error_app2 by lia; now rewrite Nat.sub_diag|].
    rewrite Es. assert (a' = a /\ b' = b) as [-> ->].
    { assert (X : firstn (length a) (a ++ l :: b) = firstn (length a) (a' ++ l :: b')) by now rewrite E.
      rewrite firstn_app, firstn_all, Nat.sub_diag, app_nil_r in X. rewrite <- Hl, firstn_app, firstn_all, Nat.sub_diag, app_nil_r in X. subst a'.
      apply app_inv_head in E. injection E as ->. auto. }
    apply IH.
Qed.
(** the threads one after the other *)
Lemma run_sequential (ls : list L) : (forall m l, In l ls -> exists m' l', alone m l m' l' /\ finished l') -> forall m, exists m', completes step finished m ls m'.
Proof.
  intros H m. assert (G : forall todo d m, (forall l, In l todo -> In l ls) -> Forall finished d -> exists m' ls', run step m (d ++ todo) m' ls' /\ Forall finished ls').
  { induction todo as [|l todo IH]; intros d m0 Hin Hd; [exists m0, d; rewrite app_nil_r; split; [constructor|exact Hd]|].
    destruct (H m0 l (Hin l (or_introl eq_refl))) as (m1&l1&HA&HF). destruct (IH (d ++ [l1]) m1) as (m2&ls2&HR&HF2).
    - intros x Hx. apply Hin. now right.
    - apply Forall_app. auto.
    - exists m2, ls2. split; [|exact HF2]. eapply run_trans; [apply run_alone, HA|]. now rewrite <- app_assoc in HR. }
  destruct (G ls [] m (fun _ h => h) (Forall_nil _)) as (m'&ls'&H1&H2). exists m', ls'. auto.
Qed.
End Runs.

(* ---------- atomic_prob_add ---------- *)
Section Atomic.
Context {K T U : Type} (eqb : K -> K -> bool) (f : T -> U -> T).
Hypothesis eqb_spec : forall x y, eqb x y = true <-> x = y.
Notation adder := (@adder K T U).
Definition goal_of (l : adder) : K * U := match l with Start x u => (x, u) | Loop x u _ => (x, u) | Done x u => (x, u) end.
Definition is_done (l : adder) : bool := match l with Done _ _ => true | _ => false end.
Notation at_cell := (BwSpec.at_cell eqb).
(** some order of the finished calls *)
Definition ainv (m0 : K -> T) (gs : list (K * U)) (m : K -> T) (ls : list adder) : Prop :=
  map goal_of ls = gs /\ exists done, Permutation done (map goal_of (filter is_done ls)) /\ forall x, m x = fold_left f (at_cell x done) (m0 x).
Lemma atomic_step m0 gs m l1 l l2 m' l' : ainv m0 gs m (l1 ++ l :: l2) -> add_step eqb f m l m' l' -> ainv m0 gs m' (l1 ++ l' :: l2).
Proof.
  intros [H1 (dn&H2&H3)] HS. assert (Hg : goal_of l' = goal_of l) by now destruct HS. split; [rewrite <- H1, !map_app; cbn [map]; now rewrite Hg|].
  rewrite filter_app in *. cbn [filter] in *. destruct HS as [m x u|m x u old Ho|m x u old Ho]; cbn [is_done] in *; [eauto| |eauto].
  exists (dn ++ [(x, u)]). split.
  - rewrite map_app in *. cbn [map goal_of] in *. eapply perm_trans; [symmetry; apply Permutation_cons_append|]. eapply perm_trans; [|apply Permutation_middle]. now constructor.
  - intros y. unfold at_cell. rewrite filter_app, map_app, fold_left_app. cbn [filter fst]. fold (at_cell y dn). unfold write. destruct (eqb y x) eqn:E; cbn [map fold_left]; [|apply H3].
    apply eqb_spec in E. subst y. rewrite <- H3. cbn [snd]. now rewrite Ho.
Qed.
Lemma atomic_result m gs m' : completes (add_step eqb f) added m (map (fun g => Start (fst g) (snd g)) gs) m' ->
  exists order, Permutation order gs /\ forall x, m' x = fold_left f (at_cell x order) (m x).
Proof.
  intros (ls'&HR&HF). assert (HI : ainv m gs m' ls').
  { refine (run_inv _ (ainv m gs) _ _ _ _ _ HR _); [intros; eapply atomic_step; eauto|]. split; [rewrite map_map; cbn; rewrite <- map_id; apply map_ext; now intros []|].
    exists []. split; [|reflexivity]. replace (filter _ _) with (@nil adder); [constructor|]. clear. induction gs as [|g gs IH]; [reflexivity|exact IH]. }
  destruct HI as [H1 (dn&H2&H3)]. exists dn. split; [|exact H3]. rewrite H2. replace (filter is_done ls') with ls'; [now rewrite H1|]. symmetry. apply filter_all.
  intros l Hl. rewrite Forall_forall in HF. destruct (HF l Hl) as (x&u&->). reflexivity.
Qed.
Lemma atomic_exists m gs : exists m', completes (add_step eqb f) added m (map (fun g => Start (fst g) (snd g)) gs) m'.
Proof.
  apply run_sequential. intros m0 l Hl. apply in_map_iff in Hl. destruct Hl as ((x&u)&<-&_). cbn [fst snd].
  exists (write eqb m0 x (f (m0 x) u)), (Done x u). split; [|now exists x, u]. eapply alone_step; [constructor|]. eapply alone_step; [now constructor|constructor].
Qed.
Lemma at_cell_perm x (gs gs' : list (K * U)) : Permutation gs gs' -> Permutation (at_cell x gs) (at_cell x gs').
Proof. intros H. unfold at_cell. apply Permutation_map. induction H; cbn; repeat (destruct (eqb x _)); try constructor; auto; eapply perm_trans; eauto. Qed.
End Atomic.

(* ---------- select_max ---------- *)
Section Select.
Context {V : Type} (ltb : V -> V -> bool) (add : V -> V -> V) (bot : V).
Hypothesis laws : score_laws ltb add bot.
Notation cell := (Z * V)%type.
Notation le := (not_above ltb).
Lemma le_refl a : le a a. Proof. apply (sl_irr _ _ _ laws). Qed.
Lemma le_trans a b c : le a b -> le b c -> le a c. Proof. apply (sl_total _ _ _ laws). Qed.
Lemma lt_le a b : ltb a b = true -> le a b.
Proof. intros H. unfold not_above. destruct (ltb b a) eqn:E; [|reflexivity]. pose proof (sl_trans _ _ _ laws _ _ _ H E) as X. now rewrite (sl_irr _ _ _ laws) in X. Qed.
Lemma lt_le_trans a b c : ltb a b = true -> le b c -> ltb a c = true.
Proof. intros H G. destruct (ltb a c) eqn:E; [reflexivity|]. assert (X : le b a) by exact (le_trans _ _ _ G E). unfold not_above in X. congruence. Qed.
Lemma le_lt_trans a b c : le a b -> ltb b c = true -> ltb a c = true.
Proof. intros H G. destruct (ltb a c) eqn:E; [reflexivity|]. assert (X : le c b) by exact (le_trans _ _ _ E H). unfold not_above in X. congruence. Qed.

Notation below := (BwSpec.below ltb).
Lemma below_le st c d : below st c d -> le (snd c) (snd d).
Proof. destruct st; cbn; [|auto]. intros [H|H]; [now apply lt_le|tauto]. Qed.
Lemma below_refl st c : below st c c.
Proof. destruct st; cbn; [right; pose proof (le_refl (snd c)); repeat split; auto; lia|apply le_refl]. Qed.
Lemma below_trans st a b c : below st a b -> below st b c -> below st a c.
Proof.
  destruct st; cbn; [|apply le_trans]. intros [H|(H1&H2&H3)] [G|(G1&G2&G3)].
  - left. exact (sl_trans _ _ _ laws _ _ _ H G).
  - left. eapply lt_le_trans; eauto.
  - left. eapply le_lt_trans; eauto.
  - right. split; [eapply le_trans; eauto|]. split; [eapply le_trans; eauto|lia].
Qed.

Definition sgoal (l : @selector V) : nat * cell :=
  match l with SStart x c | SRead x c | SIdx x c _ | SVal x c _ | SCas x c _ | SDone x c => (x, c) end.
Definition sdone (l : @selector V) : bool := match l with SDone _ _ => true | _ => false end.
Definition better (c prev : cell) : Prop := ltb (snd c) (snd prev) = false /\ ((ltb (snd prev) (snd c)) = false -> (fst c < fst prev)%Z).
Lemma better_below st c prev : better c prev -> below st prev c.
Proof. intros [H1 H2]. destruct st; cbn; [|exact H1]. destruct (ltb (snd prev) (snd c)) eqn:E; [now left|]. right. repeat split; auto. specialize (H2 eq_refl). lia. Qed.
Definition local_ok (torn : bool) (l : @selector V) (m : nat -> cell) : Prop :=
  match l with
  | SIdx _ _ _ => torn = true
  | SVal x _ v => torn = true /\ le v (snd (m x))
  | SCas x c prev => better c prev
  | SDone x c => below (negb torn) c (m x)
  | _ => True
  end.
Definition sinv (torn : bool) (m0 : nat -> cell) (gs : list (nat * cell)) (m : nat -> cell) (ls : list (@selector V)) : Prop :=
  map sgoal ls = gs /\ (forall x, below (negb torn) (m0 x) (m x) /\ (m x = m0 x \/ (better (m x) (m0 x) /\ In (x, m x) gs))) /\ Forall (fun l => local_ok torn l m) ls.
Lemma after_read_ok torn x c prev m : (prev = m x \/ (torn = true /\ le (snd prev) (snd (m x)))) -> local_ok torn (after_read ltb x c prev) m.
Proof.
  intros HP. unfold after_read. destruct (ltb (snd c) (snd prev)) eqn:E1.
  { cbn. destruct HP as [-> |[-> HP]]; [destruct torn; cbn; [now apply lt_le|now left]|]. cbn. eapply le_trans; [apply lt_le; eassumption|exact HP]. }
  destruct (ltb (snd prev) (snd c)) eqn:E2; cbn [negb andb].
  { cbn. split; [exact E1|congruence]. }
  destruct (Z.leb_spec (fst prev) (fst c)) as [H|H].
  - cbn. destruct HP as [-> |[-> HP]]; [destruct torn; cbn; [exact E2|right; auto]|]. cbn. exact (le_trans _ _ _ E2 HP).
  - cbn. split; [exact E1|auto].
Qed.
Lemma below_write torn m x c m' (l : @selector V) : m' = write Nat.eqb m x c -> below (negb torn) (m x) c -> local_ok torn l m -> local_ok torn l m'.
Proof.
  intros -> HB HL. assert (G : forall y, below (negb torn) (m y) (write Nat.eqb m x c y)).
  { intros y. unfold write. destruct (Nat.eqb_spec y x) as [->|]; [exact HB|apply below_refl]. }
  destruct l; cbn in *; auto; [|eapply below_trans; eauto]. destruct HL as [H1 H2]. split; [exact H1|]. eapply le_trans; [exact H2|]. exact (below_le _ _ _ (G x0)).
Qed.
Lemma better_trans a b c : better a b -> better b c -> better a c.
Proof.
  intros [H1 H2] [G1 G2]. assert (X : le (snd c) (snd a)) by exact (le_trans _ _ _ G1 H1). split; [exact X|]. intros E.
  (* a <= c: all equal *)
  assert (E1 : ltb (snd b) (snd a) = false) by (apply (le_trans (snd a) (snd c) (snd b)); [exact E|exact G1]).
  assert (E2 : ltb (snd c) (snd b) = false) by (apply (le_trans (snd b) (snd a) (snd c)); [exact H1|exact E]).
  specialize (H2 E1). specialize (G2 E2). lia.
Qed.
Lemma select_sinv torn m0 gs m l1 l l2 m' l' : sinv torn m0 gs m (l1 ++ l :: l2) -> select_step ltb torn m l m' l' -> sinv torn m0 gs m' (l1 ++ l' :: l2).
Proof.
  intros (H1&H2&H3) HS.
  assert (Hg : sgoal l' = sgoal l) by (destruct HS; try reflexivity; unfold after_read; (destruct (ltb _ _); [reflexivity|destruct (_ && _); reflexivity])).
  assert (HG : map sgoal (l1 ++ l' :: l2) = gs) by (rewrite <- H1, !map_app; cbn [map]; now rewrite Hg).
  pose proof H3 as H3'. apply Forall_app in H3'. destruct H3' as [F1 F2]. inversion F2 as [|? ? Hl F3]; subst.
  assert (Hread : m' = m -> local_ok torn l' m -> sinv torn m0 (map sgoal (l1 ++ l :: l2)) m' (l1 ++ l' :: l2)).
  { intros -> HL. split; [exact HG|]. split; [exact H2|]. apply Forall_app. auto. }
  destruct HS as [m x c E|m x c E|m x c|m x c E|m x c i|m x c E|m x c v|m x c prev E|m x c prev E].
  - apply Hread; [reflexivity|]. cbn. destruct torn; cbn; [now apply lt_le|now left].
  - apply Hread; [reflexivity|exact I].
  - apply Hread; [reflexivity|]. apply after_read_ok. now left.
  - apply Hread; [reflexivity|exact E].
  - apply Hread; [reflexivity|]. apply after_read_ok. right. split; [exact Hl|]. apply le_refl.
  - apply Hread; [reflexivity|]. split; [exact E|apply le_refl].
  - apply Hread; [reflexivity|]. apply after_read_ok. right. exact Hl.
  - cbn in Hl. subst prev. assert (HB : below (negb torn) (m x) c) by now apply better_below. split; [exact HG|]. split.
    + intros y. destruct (H2 y) as [A1 A2]. unfold write. destruct (Nat.eqb_spec y x) as [->|]; [|auto]. split; [eapply below_trans; eauto|]. right.
      split; [destruct A2 as [A2|[A2 _]]; [now rewrite <- A2|eapply better_trans; eauto]|]. rewrite map_app. apply in_or_app. right. now left.
    + apply Forall_app. split; [|constructor].
      * eapply Forall_impl; [|exact F1]. intros l HL. eapply below_write; eauto.
      * cbn. unfold write. rewrite Nat.eqb_refl. apply below_refl.
      * eapply Forall_impl; [|exact F3]. intros l HL. eapply below_write; eauto.
  - apply Hread; [reflexivity|exact I].
Qed.
(** what every complete run gives *)
Lemma select_result torn m gs m' : completes (select_step ltb torn) selected m (map (fun g => SStart (fst g) (snd g)) gs) m' ->
  forall x, (m' x = m x \/ (better (m' x) (m x) /\ In (x, m' x) gs)) /\ forall c, In (x, c) gs -> below (negb torn) c (m' x).
Proof.
  intros (ls'&HR&HF). assert (HI : sinv torn m gs m' ls').
  { refine (run_inv _ (sinv torn m gs) _ _ _ _ _ HR _); [intros; eapply select_sinv; eauto|]. split; [rewrite map_map; cbn; rewrite <- map_id; apply map_ext; now intros []|].
    split; [intros x; split; [apply below_refl|now left]|]. apply Forall_forall. intros l Hl. apply in_map_iff in Hl. destruct Hl as (g&<-&_). exact I. }
  destruct HI as (H1&H2&H3). intros x. split; [apply H2|]. intros c Hc. rewrite <- H1 in Hc. apply in_map_iff in Hc. destruct Hc as (l&El&Hl). rewrite Forall_forall in HF, H3.
  destruct (HF l Hl) as (x'&c'&->). injection El as -> ->. exact (H3 _ Hl).
Qed.
Lemma select_alone torn m x c : exists m' l', alone (select_step ltb torn) m (SStart x c) m' l' /\ selected l'.
Proof.
  destruct (ltb (snd c) (snd (m x))) eqn:E; [exists m, (SDone x c); split; [eapply alone_step; [now constructor|constructor]|now exists x, c]|].
  assert (X : after_read ltb x c (m x) = SDone x c \/ after_read ltb x c (m x) = SCas x c (m x)) by (unfold after_read; destruct (ltb _ _); [auto|destruct (_ && _); auto]).
  destruct X as [X|X].
  - exists m, (SDone x c). split; [|now exists x, c]. eapply alone_step; [apply sel_loop, E|]. eapply alone_step; [apply sel_read|]. rewrite X. constructor.
  - exists (write Nat.eqb m x c), (SDone x c). split; [|now exists x, c]. eapply alone_step; [apply sel_loop, E|]. eapply alone_step; [apply sel_read|]. rewrite X. eapply alone_step; [now apply sel_cas|constructor].
Qed.
Lemma select_exists torn m gs : exists m', completes (select_step ltb torn) selected m (map (fun g => SStart (fst g) (snd g)) gs) m'.
Proof. apply run_sequential. intros m0 l Hl. apply in_map_iff in Hl. destruct Hl as (g&<-&_). apply select_alone. Qed.
End Select.
