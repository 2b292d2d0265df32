(** Proofs for C71 and C72: sums over paths. *)
From Coq Require Import Permutation.
From Verif Require Import Base ListLemmas FsaModel FsaSpec BwModel BwSpec BwConcProofs BwViterbiProofs.
Local Open Scope nat_scope.

Section Num.
Context {T : Type} (add mul quot : T -> T -> T) (zero one : T) (is_zero : T -> bool).
Hypothesis N : number_laws add mul quot zero one is_zero.
Notation sum := (sum_over add zero).
Lemma add_zero_r a : add a zero = a. Proof. rewrite (nl_add_comm _ _ _ _ _ _ N). apply (nl_add_zero _ _ _ _ _ _ N). Qed.
Lemma add_zero_l a : add zero a = a. Proof. apply (nl_add_zero _ _ _ _ _ _ N). Qed.
Lemma mul_zero_r a : mul a zero = zero. Proof. rewrite (nl_mul_comm _ _ _ _ _ _ N). apply (nl_mul_zero _ _ _ _ _ _ N). Qed.
Lemma mul_zero_l a : mul zero a = zero. Proof. apply (nl_mul_zero _ _ _ _ _ _ N). Qed.
Lemma mul_one_r a : mul a one = a. Proof. rewrite (nl_mul_comm _ _ _ _ _ _ N). apply (nl_mul_one _ _ _ _ _ _ N). Qed.
Lemma mul_one_l a : mul one a = a. Proof. apply (nl_mul_one _ _ _ _ _ _ N). Qed.
Lemma mul_a a b c : mul a (mul b c) = mul (mul a b) c. Proof. apply (nl_mul_assoc _ _ _ _ _ _ N). Qed.
Lemma add_a a b c : add a (add b c) = add (add a b) c. Proof. apply (nl_add_assoc _ _ _ _ _ _ N). Qed.
Lemma add_c a b : add a b = add b a. Proof. apply (nl_add_comm _ _ _ _ _ _ N). Qed.
Lemma mul_c a b : mul a b = mul b a. Proof. apply (nl_mul_comm _ _ _ _ _ _ N). Qed.
Lemma add_4 a b c d : add (add a b) (add c d) = add (add a c) (add b d).
Proof. rewrite <- (add_a a b), (add_a b c d), (add_c b c), <- (add_a c b d), add_a. reflexivity. Qed.

Lemma sum_nil {X} (f : X -> T) : sum [] f = zero. Proof. reflexivity. Qed.
Lemma sum_cons {X} x (l : list X) f : sum (x :: l) f = add (f x) (sum l f). Proof. reflexivity. Qed.
Lemma sum_one {X} (x : X) f : sum [x] f = f x. Proof. rewrite sum_cons, sum_nil. apply add_zero_r. Qed.
Arguments sum_over : simpl never.
Lemma sum_ext {X} (l : list X) f g : (forall x, In x l -> f x = g x) -> sum l f = sum l g.
Proof. intros H. induction l as [|x l IH]; [reflexivity|]. rewrite !sum_cons, (H x (or_introl eq_refl)), IH; [reflexivity|]. intros y Hy. apply H. now right. Qed.
Lemma sum_zero {X} (l : list X) f : (forall x, In x l -> f x = zero) -> sum l f = zero.
Proof. intros H. induction l as [|x l IH]; [reflexivity|]. rewrite !sum_cons, (H x (or_introl eq_refl)), IH, add_zero_l; [reflexivity|]. intros y Hy. apply H. now right. Qed.
Lemma sum_app {X} (l l' : list X) f : sum (l ++ l') f = add (sum l f) (sum l' f).
Proof. induction l as [|x l IH]; cbn [app]; [now rewrite add_zero_l|]. now rewrite !sum_cons, IH, add_a. Qed.
Lemma sum_map {X Y} (h : X -> Y) (l : list X) f : sum (map h l) f = sum l (fun x => f (h x)).
Proof. induction l as [|x l IH]; [reflexivity|]. cbn [map]. now rewrite !sum_cons, IH. Qed.
Lemma sum_flat_map {X Y} (h : X -> list Y) (l : list X) f : sum (flat_map h l) f = sum l (fun x => sum (h x) f).
Proof. induction l as [|x l IH]; [reflexivity|]. cbn [flat_map]. rewrite sum_app, IH, sum_cons. reflexivity. Qed.
Lemma sum_filter {X} P (l : list X) f : sum (filter P l) f = sum l (fun x => if P x then f x else zero).
Proof. induction l as [|x l IH]; [reflexivity|]. cbn [filter]. rewrite (sum_cons x l). destruct (P x) eqn:E; [now rewrite sum_cons, IH|now rewrite IH, add_zero_l]. Qed.
Lemma sum_mul_l {X} a (l : list X) f : mul a (sum l f) = sum l (fun x => mul a (f x)).
Proof. induction l as [|x l IH]; [apply mul_zero_r|]. now rewrite !sum_cons, (nl_distr _ _ _ _ _ _ N), IH. Qed.
Lemma sum_mul_r {X} a (l : list X) f : mul (sum l f) a = sum l (fun x => mul (f x) a).
Proof. rewrite mul_c, sum_mul_l. apply sum_ext. intros. apply mul_c. Qed.
Lemma sum_add {X} (l : list X) f g : sum l (fun x => add (f x) (g x)) = add (sum l f) (sum l g).
Proof. induction l as [|x l IH]; [symmetry; apply add_zero_l|]. now rewrite !sum_cons, IH, add_4. Qed.
Lemma sum_swap {X Y} (l : list X) (l' : list Y) f : sum l (fun x => sum l' (fun y => f x y)) = sum l' (fun y => sum l (fun x => f x y)).
Proof. induction l as [|x l IH]; [symmetry; now apply sum_zero|]. now rewrite sum_cons, IH, <- sum_add. Qed.
Lemma sum_perm {X} (l l' : list X) f : Permutation l l' -> sum l f = sum l' f.
Proof. induction 1 as [|x l l' _ IH|x y l|l l' l'' _ IH1 _ IH2]; rewrite ?sum_cons; [reflexivity|now rewrite IH| |congruence]. rewrite !add_a. f_equal. apply add_c. Qed.
Lemma sum_all_zero {X} (l : list X) f : sum l f = zero -> forall x, In x l -> f x = zero.
Proof.
  induction l as [|y l IH]; [intros _ x []|]. rewrite sum_cons. intros H x [<-|Hx]; [exact (nl_positive _ _ _ _ _ _ N _ _ H)|]. apply IH; [|exact Hx].
  rewrite add_c in H. exact (nl_positive _ _ _ _ _ _ N _ _ H).
Qed.
Lemma sum_quot {X} (l : list X) f s : s <> zero -> sum l (fun x => quot (f x) s) = quot (sum l f) s.
Proof. intros Hs. induction l as [|x l IH]; [symmetry; exact (nl_quot_zero _ _ _ _ _ _ N s Hs)|]. now rewrite !sum_cons, IH, (nl_quot_add _ _ _ _ _ _ N). Qed.
Lemma sum_tuples_S {X} (l : list X) n f : sum (tuples l (S n)) f = sum l (fun x => sum (tuples l n) (fun p => f (x :: p))).
Proof. cbn [tuples]. rewrite sum_flat_map. apply sum_ext. intros x _. apply sum_map. Qed.
Lemma sum_tuples_app {X} (l : list X) m n f : sum (tuples l (m + n)) f = sum (tuples l m) (fun p => sum (tuples l n) (fun q => f (p ++ q))).
Proof.
  revert f. induction m as [|m IH]; intros f; [cbn [tuples Nat.add]; now rewrite sum_one|]. change (S m + n) with (S (m + n)). rewrite !sum_tuples_S. apply sum_ext. intros x _.
  rewrite (IH (fun p => f (x :: p))). reflexivity.
Qed.
Lemma sum_tuples_snoc {X} (l : list X) n f : sum (tuples l (S n)) f = sum (tuples l n) (fun p => sum l (fun x => f (p ++ [x]))).
Proof.
  replace (S n) with (n + 1) by lia. rewrite sum_tuples_app. apply sum_ext. intros p _. rewrite sum_tuples_S. apply sum_ext. intros x _. cbn [tuples]. now rewrite sum_one.
Qed.
Lemma in_tuples {X} (l : list X) n p : In p (tuples l n) -> length p = n /\ forall x, In x p -> In x l.
Proof.
  revert p. induction n as [|n IH]; intros p; cbn [tuples]; [intros [<-|[]]; split; [reflexivity|intros ? []]|]. rewrite in_flat_map. intros (x&Hx&Hp). apply in_map_iff in Hp.
  destruct Hp as (q&<-&Hq). destruct (IH q Hq) as [H1 H2]. split; [cbn; now rewrite H1|]. intros y [<-|Hy]; auto.
Qed.
Definition ind (b : bool) (v : T) : T := if b then v else zero.
Lemma ind_mul_r b v a : mul (ind b v) a = ind b (mul v a). Proof. destruct b; [reflexivity|apply mul_zero_l]. Qed.
Lemma ind_mul_l b v a : mul a (ind b v) = ind b (mul a v). Proof. destruct b; [reflexivity|apply mul_zero_r]. Qed.
Lemma ind_and a b v : ind a (ind b v) = ind (a && b) v. Proof. destruct a, b; reflexivity. Qed.

(* ---------- atomic sums ---------- *)
Notation padd := (prob_add add zero).
Lemma fold_some us a : Forall (fun u => u <> None) us -> fold_left padd us a = add a (sum us (fun u => match u with Some y => y | None => zero end)).
Proof.
  revert a. induction us as [|[y|] us IH]; intros a H; [cbn; now rewrite sum_nil, add_zero_r| |inversion H; congruence]. inversion H; subst. cbn [fold_left prob_add]. rewrite sum_cons, IH by assumption. symmetry. apply add_a.
Qed.
Lemma fold_none us : Forall (fun u => u = None) us -> fold_left padd us zero = zero.
Proof. induction us as [|u us IH]; intros H; [reflexivity|]. inversion H; subst. now apply IH. Qed.
Section Cells.
Context {K : Type} (eqb : K -> K -> bool).
Hypothesis eqb_spec : forall x y, eqb x y = true <-> x = y.
Lemma cell_some gs m : completes (add_step eqb padd) added (fun _ => zero) (map (fun g => Start (fst g) (snd g)) gs) m ->
  forall x, Forall (fun g => eqb x (fst g) = true -> snd g <> None) gs -> m x = sum gs (fun g => ind (eqb x (fst g)) (match snd g with Some y => y | None => zero end)).
Proof.
  intros H x HS. destruct (atomic_result eqb padd eqb_spec _ gs m H) as (order&HP&Hm). rewrite Hm, fold_some.
  - rewrite add_zero_l. unfold at_cell. rewrite sum_map, sum_filter. apply sum_perm, HP.
  - apply Forall_forall. intros u Hu. unfold at_cell in Hu. apply in_map_iff in Hu. destruct Hu as (g&<-&Hg). apply filter_In in Hg. destruct Hg as [Hg E].
    rewrite Forall_forall in HS. apply HS; [eapply Permutation_in; eauto|exact E].
Qed.
Lemma cell_none gs m : completes (add_step eqb padd) added (fun _ => zero) (map (fun g => Start (fst g) (snd g)) gs) m ->
  forall x, Forall (fun g => eqb x (fst g) = true -> snd g = None) gs -> m x = zero.
Proof.
  intros H x HS. destruct (atomic_result eqb padd eqb_spec _ gs m H) as (order&HP&Hm). rewrite Hm. apply fold_none.
  apply Forall_forall. intros u Hu. unfold at_cell in Hu. apply in_map_iff in Hu. destruct Hu as (g&<-&Hg). apply filter_In in Hg. destruct Hg as [Hg E].
  rewrite Forall_forall in HS. apply HS; [eapply Permutation_in; eauto|exact E].
Qed.
End Cells.

(* ---------- the passes ---------- *)
Context (n_frames : nat) (start_end : list (nat * nat)) (edges : list (edge * T)) (am : nat -> nat -> Z -> T) (index : nat -> nat -> bool).
Notation score t ew := (mul (snd ew) (am t (e_seq (fst ew)) (e_emit (fst ew)))).
Notation weight := (path_weight mul one am).
Lemma is_zero_t a : is_zero a = true -> a = zero. Proof. apply (nl_is_zero _ _ _ _ _ _ N). Qed.
Lemma is_zero_z : is_zero zero = true. Proof. now apply (nl_is_zero _ _ _ _ _ _ N). Qed.
Lemma e_val_eq fwd t prev ew : e_val mul am fwd t prev ew = mul (e_prev fwd prev (fst ew)) (score t ew).
Proof. unfold e_val. now rewrite mul_a. Qed.
Lemma states_sum fwd t prev next : next_states add mul zero is_zero edges am fwd t prev next ->
  forall s, next s = sum edges (fun ew => ind (s =? (if fwd then e_to (fst ew) else e_from (fst ew))) (mul (e_prev fwd prev (fst ew)) (score t ew))).
Proof.
  unfold next_states. set (gs := flat_map (fun ew => if is_zero (e_prev fwd prev (fst ew)) then [] else [((if fwd then e_to (fst ew) else e_from (fst ew)), Some (e_val mul am fwd t prev ew))]) edges).
  assert (E : frame_adders mul is_zero edges am fwd t prev = map (fun g => Start (fst g) (snd g)) gs).
  { unfold frame_adders, gs. clear. induction edges as [|ew l IH]; [reflexivity|]. cbn [flat_map]. rewrite map_app. f_equal; [now destruct (is_zero _)|exact IH]. }
  rewrite E. intros H s. rewrite (cell_some Nat.eqb Nat.eqb_eq gs next H s).
  - unfold gs. rewrite sum_flat_map. apply sum_ext. intros ew _. destruct (is_zero (e_prev fwd prev (fst ew))) eqn:Ez.
    + apply is_zero_t in Ez. rewrite Ez, mul_zero_l. cbn. now destruct (s =? _).
    + rewrite sum_one. cbn [fst snd]. rewrite e_val_eq. reflexivity.
  - apply Forall_forall. intros g Hg _. unfold gs in Hg. apply in_flat_map in Hg. destruct Hg as (ew&_&Hg). destruct (is_zero _); [destruct Hg|]. destruct Hg as [<-|[]]. discriminate.
Qed.
Lemma weight_app p q : forall t, weight t (p ++ q) = mul (weight t p) (weight (t + length p) q).
Proof.
  induction p as [|[e w] p IH]; intros t; cbn [app path_weight length]; [now rewrite mul_one_l, Nat.add_0_r|]. rewrite IH, mul_a. do 2 f_equal. lia.
Qed.
Lemma connects_app {W} (p q : list (edge * W)) ew : forall s s', connects s (p ++ ew :: q) s' = connects s p (e_from (fst ew)) && connects (e_to (fst ew)) q s'.
Proof. induction p as [|a p IH]; intros s s'; cbn [app connects]; [now rewrite Nat.eqb_sym|]. now rewrite IH, andb_assoc. Qed.

Section One.
Context (owner : nat -> nat).
Hypothesis HB : batch_of owner start_end edges.
Context (b n s0 s1 : nat).
Hypothesis Hb : nth_error start_end b = Some (s0, s1).
Hypothesis Hn : n <= n_frames.
Hypothesis HX : forall t, t < n_frames -> index t b = (t <? n).
Context (fwd bwd : nat -> nat -> T).
Hypothesis F0 : fwd 0 = start_states zero one start_end.
Hypothesis FS : forall t, t < n_frames -> next_states add mul zero is_zero edges am true t (fwd t) (fwd (S t)).
Notation set_end := (set_end_states one n_frames start_end index).
Hypothesis B0 : bwd n_frames = (fun _ => zero).
Hypothesis BS : forall t, t < n_frames -> next_states add mul zero is_zero edges am false t (set_end t (bwd (S t))) (bwd t).

Lemma own_edge ew : In ew edges -> owner (e_from (fst ew)) = e_seq (fst ew) /\ owner (e_to (fst ew)) = e_seq (fst ew).
Proof. destruct ew as [e w]. apply (bo_edges _ _ _ HB). Qed.
Lemma own_start : owner s0 = b /\ owner s1 = b. Proof. exact (bo_start _ _ _ HB b s0 s1 Hb). Qed.
Lemma own_path p : (forall ew, In ew p -> In ew edges) -> forall s s', connects s p s' = true -> owner s' = owner s.
Proof.
  intros Hp. induction p as [|ew p IH]; intros s s' H; cbn in H; [apply Nat.eqb_eq in H; now subst|]. apply andb_true_iff in H. destruct H as [H1 H2]. apply Nat.eqb_eq in H1. subst s.
  rewrite (IH (fun x h => Hp x (or_intror h)) _ _ H2). destruct (own_edge ew (Hp _ (or_introl eq_refl))). congruence.
Qed.
Lemma unique_b b' s s' : nth_error start_end b' = Some (s, s') -> (owner s = b \/ owner s' = b) -> b' = b.
Proof. intros H. destruct (bo_start _ _ _ HB b' s s' H) as [-> ->]. tauto. Qed.

Lemma fwd_sum t : t <= n_frames -> forall s, owner s = b -> fwd t s = sum (tuples edges t) (fun p => ind (connects s0 p s) (weight 0 p)).
Proof.
  induction t as [|t IH]; intros Ht s Hs.
  - rewrite F0. cbn [tuples]. rewrite sum_one. cbn [connects path_weight]. unfold start_states, ind. destruct (existsb _ start_end) eqn:E.
    + apply existsb_exists in E. destruct E as ([x y]&Hin&E). cbn in E. apply Nat.eqb_eq in E. subst x. apply In_nth_error in Hin. destruct Hin as (b'&Hb').
      pose proof (unique_b b' s y Hb' (or_introl Hs)) as Eb. rewrite Eb, Hb in Hb'. injection Hb' as -> _. now rewrite Nat.eqb_refl.
    + destruct (Nat.eqb_spec s0 s) as [->|]; [|reflexivity]. exfalso. assert (X : existsb (fun q => fst q =? s) start_end = true); [|congruence].
      apply existsb_exists. exists (s, s1). split; [eapply nth_error_In, Hb|]. apply Nat.eqb_refl.
  - rewrite (states_sum true t _ _ (FS t ltac:(lia)) s). rewrite sum_tuples_snoc, sum_swap. apply sum_ext. intros ew Hew. destruct (Nat.eqb_spec s (e_to (fst ew))) as [Es|Es].
    + cbn [ind e_prev]. unfold e_prev. rewrite IH; [|lia|destruct (own_edge ew Hew); congruence]. rewrite sum_mul_r. apply sum_ext. intros p Hp. apply in_tuples in Hp. destruct Hp as [Hp _].
      rewrite connects_snoc, ind_mul_r. subst s. rewrite Nat.eqb_refl, andb_true_r. f_equal. rewrite weight_app, Hp. destruct ew as [e w]. cbn. now rewrite mul_one_r.
    + cbn [ind]. symmetry. apply sum_zero. intros p _. rewrite connects_snoc. destruct (Nat.eqb_spec (e_to (fst ew)) s); [congruence|]. now rewrite andb_false_r.
Qed.
Lemma set_end_at t states s : owner s = b -> t < n_frames -> set_end t states s = if (t <? n) && ((t =? n_frames - 1) || negb (S t <? n)) && (s1 =? s) then one else states s.
Proof.
  intros Hs Ht. unfold set_end_states.
  assert (HI : t <> n_frames - 1 -> index (S t) b = (S t <? n)) by (intros; apply HX; lia).
  assert (G : forall c, c = existsb (fun '(b0, q) => index t b0 && ((t =? n_frames - 1) || negb (index (S t) b0)) && (snd q =? s)) (combine (seq 0 (length start_end)) start_end) ->
    c = (t <? n) && ((t =? n_frames - 1) || negb (S t <? n)) && (s1 =? s)).
  { intros c ->. apply eq_true_iff_eq. rewrite existsb_exists. split.
    - intros ((b'&x&y)&Hin&E). apply in_combine_seq in Hin. destruct Hin as (j&->&Hj). cbn [fst snd Nat.add] in E. apply andb_true_iff in E. destruct E as [E1 E2]. apply Nat.eqb_eq in E2. subst y.
      pose proof (unique_b j x s Hj (or_intror Hs)) as ->. rewrite Hb in Hj. injection Hj as -> ->. rewrite Nat.eqb_refl, andb_true_r. rewrite HX in E1 by exact Ht.
      destruct (Nat.eqb_spec t (n_frames - 1)); [exact E1|]. now rewrite HI in E1.
    - intros E. apply andb_true_iff in E. destruct E as [E1 E2]. exists (b, (s0, s1)). split; [apply in_combine_seq; exists b; auto|]. cbn [snd]. rewrite E2, andb_true_r, HX by exact Ht.
      destruct (Nat.eqb_spec t (n_frames - 1)); [exact E1|]. now rewrite HI. }
  now rewrite (G _ eq_refl).
Qed.
Lemma bwd_after t : n <= t -> t <= n_frames -> forall s, owner s = b -> bwd t s = zero.
Proof.
  intros H1 H2. replace t with (n_frames - (n_frames - t)) in * by lia. remember (n_frames - t) as d eqn:Ed. clear Ed. revert H1 H2. induction d as [|d IH]; intros H1 H2 s Hs; [now rewrite Nat.sub_0_r, B0|].
  destruct (Nat.le_gt_cases n_frames d) as [Hd|Hd]; [replace (n_frames - S d) with (n_frames - d) by lia; apply IH; auto; lia|].
  rewrite (states_sum false _ _ _ (BS (n_frames - S d) ltac:(lia)) s). apply sum_zero. intros ew Hew. destruct (Nat.eqb_spec s (e_from (fst ew))) as [Es|]; [|reflexivity]. cbn [ind]. unfold e_prev.
  destruct (own_edge ew Hew) as [O1 O2]. rewrite set_end_at; [|congruence|lia]. destruct (Nat.ltb_spec (n_frames - S d) n) as [|_]; [lia|]. cbn [andb].
  replace (S (n_frames - S d)) with (n_frames - d) by lia. rewrite IH by (congruence || lia). apply mul_zero_l.
Qed.
Lemma bwd_sum d : forall t, t + S d = n -> forall s, owner s = b -> set_end t (bwd (S t)) s = sum (tuples edges d) (fun q => ind (connects s q s1) (weight (S t) q)).
Proof.
  induction d as [|d IH]; intros t Ht s Hs; rewrite set_end_at by (assumption || lia).
  - cbn [tuples]. rewrite sum_one. cbn [connects path_weight]. destruct (Nat.ltb_spec t n); [|lia]. destruct (Nat.ltb_spec (S t) n); [lia|]. cbn [negb]. rewrite orb_true_r. cbn [andb].
    rewrite (Nat.eqb_sym s s1). destruct (s1 =? s); cbn [ind]; [reflexivity|]. apply bwd_after; [lia|lia|exact Hs].
  - destruct (Nat.ltb_spec (S t) n); [|lia]. destruct (Nat.eqb_spec t (n_frames - 1)); [lia|]. cbn [negb orb]. rewrite andb_false_r. cbn [andb].
    rewrite (states_sum false (S t) _ _ (BS (S t) ltac:(lia)) s). rewrite sum_tuples_S. apply sum_ext. intros ew Hew. destruct (own_edge ew Hew) as [O1 O2]. destruct (Nat.eqb_spec s (e_from (fst ew))) as [Es|Es].
    + cbn [ind]. unfold e_prev. rewrite (IH (S t) ltac:(lia)) by congruence. rewrite sum_mul_r. apply sum_ext. intros q _. rewrite ind_mul_r. cbn [connects]. rewrite <- Es, Nat.eqb_refl. cbn [andb].
      f_equal. destruct ew as [e w]. cbn [path_weight fst snd]. apply mul_c.
    + cbn [ind]. symmetry. apply sum_zero. intros q _. cbn [connects]. destruct (Nat.eqb_spec (e_from (fst ew)) s); [congruence|]. reflexivity.
Qed.
(** the value of an edge in a frame *)
Definition edge_val (t : nat) (ew : edge * T) : T := mul (mul (fwd t (e_from (fst ew))) (score t ew)) (set_end t (bwd (S t)) (e_to (fst ew))).
Lemma edge_val_sum t ew : In ew edges -> e_seq (fst ew) = b -> t < n ->
  edge_val t ew = sum (tuples edges t) (fun p => sum (tuples edges (n - S t)) (fun q => ind (connects s0 (p ++ ew :: q) s1) (weight 0 (p ++ ew :: q)))).
Proof.
  intros Hew Hs Ht. destruct (own_edge ew Hew) as [O1 O2]. unfold edge_val. rewrite (fwd_sum t ltac:(lia)) by congruence. rewrite (bwd_sum (n - S t) t ltac:(lia)) by congruence.
  rewrite !sum_mul_r. apply sum_ext. intros p Hp. rewrite sum_mul_l. apply sum_ext. intros q _. apply in_tuples in Hp. destruct Hp as [Hp _].
  rewrite connects_app, !ind_mul_r, ind_mul_l, ind_and. f_equal. rewrite weight_app, Hp. destruct ew as [e w]. cbn [path_weight fst snd Nat.add]. now rewrite !mul_a.
Qed.
Lemma edge_val_after t ew : In ew edges -> e_seq (fst ew) = b -> n <= t -> t < n_frames -> edge_val t ew = zero.
Proof.
  intros Hew Hs H1 H2. destruct (own_edge ew Hew) as [O1 O2]. unfold edge_val. rewrite set_end_at by (congruence || lia). destruct (Nat.ltb_spec t n); [lia|]. cbn [andb].
  rewrite bwd_after by (congruence || lia). apply mul_zero_r.
Qed.
(** sums of the edges that satisfy a condition on the label *)
Lemma edges_sum t (Q : Z -> bool) : t < n ->
  sum edges (fun ew => ind ((e_seq (fst ew) =? b) && Q (e_emit (fst ew))) (edge_val t ew))
  = sum_paths add mul zero one am edges s0 s1 n (fun p => match nth_error (labels p) t with Some c => Q c | None => false end).
Proof.
  intros Ht. unfold sum_paths. rewrite sum_filter. replace n with (t + S (n - S t)) at 1 by lia. rewrite sum_tuples_app.
  transitivity (sum (tuples edges t) (fun p => sum edges (fun ew => sum (tuples edges (n - S t)) (fun q => ind (connects s0 (p ++ ew :: q) s1 && Q (e_emit (fst ew))) (weight 0 (p ++ ew :: q)))))).
  - rewrite sum_swap. apply sum_ext. intros ew Hew. destruct (Nat.eqb_spec (e_seq (fst ew)) b) as [Es|Es]; cbn [andb].
    + rewrite (edge_val_sum t ew Hew Es Ht). destruct (Q (e_emit (fst ew))); cbn [ind].
      * apply sum_ext. intros p _. apply sum_ext. intros q _. now rewrite andb_true_r.
      * symmetry. apply sum_zero. intros p _. apply sum_zero. intros q _. now rewrite andb_false_r.
    + cbn [ind]. symmetry. apply sum_zero. intros p Hp. apply sum_zero. intros q _. apply in_tuples in Hp. destruct Hp as [_ Hp]. rewrite connects_app.
      destruct (connects s0 p (e_from (fst ew))) eqn:Ec; [|reflexivity]. exfalso. pose proof (own_path p Hp _ _ Ec). destruct (own_edge ew Hew), own_start. congruence.
  - apply sum_ext. intros p Hp. rewrite sum_tuples_S. apply sum_ext. intros ew _. apply sum_ext. intros q _. apply in_tuples in Hp. destruct Hp as [Hp _].
    assert (E : nth_error (labels (p ++ ew :: q)) t = Some (e_emit (fst ew))).
    { unfold labels. rewrite map_app, nth_error_app2 by (rewrite map_length; lia). rewrite map_length, Hp, Nat.sub_diag. reflexivity. }
    rewrite E. reflexivity.
Qed.

(** the buffer *)
Definition buf t := edge_buffer mul zero is_zero edges am false t (set_end t (bwd (S t))) (edge_buffer mul zero is_zero edges am true t (fwd t) (repeat one (length edges))).
Lemma combine_map {X Y} (h : X -> Y) (l : list X) : combine (map h l) l = map (fun x => (h x, x)) l.
Proof. induction l as [|x l IH]; [reflexivity|]. cbn. now rewrite IH. Qed.
Lemma buf_eq t : buf t = map (edge_val t) edges.
Proof.
  unfold buf. assert (E : edge_buffer mul zero is_zero edges am true t (fwd t) (repeat one (length edges)) = map (fun ew => mul (fwd t (e_from (fst ew))) (score t ew)) edges).
  { unfold edge_buffer. assert (X : combine (repeat one (length edges)) edges = map (fun ew => (one, ew)) edges) by (clear; induction edges as [|x l IH]; [reflexivity|cbn; now rewrite IH]).
    rewrite X, map_map. apply map_ext. intros ew. cbn [e_prev]. unfold e_prev. destruct (is_zero _) eqn:Ez; [apply is_zero_t in Ez; now rewrite Ez, mul_zero_l|]. rewrite mul_one_l, e_val_eq. reflexivity. }
  rewrite E. unfold edge_buffer. rewrite combine_map, map_map. apply map_ext. intros ew. unfold e_prev, edge_val. destruct (is_zero _) eqn:Ez; [apply is_zero_t in Ez; now rewrite Ez, mul_zero_r|reflexivity].
Qed.
Lemma seq_sum_eq t b' : seq_sum add zero edges (buf t) b' = sum edges (fun ew => ind (e_seq (fst ew) =? b') (edge_val t ew)).
Proof.
  unfold seq_sum. rewrite buf_eq, combine_map. assert (G : forall l a, fold_left (fun s '(x, ew) => if e_seq (fst ew) =? b' then padd s (Some x) else s) (map (fun x => (edge_val t x, x)) l) a
    = add a (sum l (fun ew => ind (e_seq (fst ew) =? b') (edge_val t ew)))).
  { induction l as [|ew l IH]; intros a; [cbn; now rewrite sum_nil, add_zero_r|]. cbn [map fold_left]. rewrite IH, sum_cons, add_a. f_equal. destruct (_ =? b'); cbn; [reflexivity|now rewrite add_zero_r]. }
  rewrite G. apply add_zero_l.
Qed.
Definition total_b := sum_paths add mul zero one am edges s0 s1 n any_path.
Lemma seq_sum_b t : t < n_frames -> seq_sum add zero edges (buf t) b = if t <? n then total_b else zero.
Proof.
  intros Ht. rewrite seq_sum_eq. destruct (Nat.ltb_spec t n) as [H|H].
  - transitivity (sum edges (fun ew => ind ((e_seq (fst ew) =? b) && true) (edge_val t ew))); [apply sum_ext; intros; now rewrite andb_true_r|].
    rewrite (edges_sum t (fun _ => true) H). unfold total_b, sum_paths. rewrite !sum_filter. apply sum_ext. intros p Hp. apply in_tuples in Hp. destruct Hp as [Hp _].
    destruct (nth_error (labels p) t) eqn:E; [reflexivity|]. apply nth_error_None in E. unfold labels in E. rewrite map_length in E. lia.
  - apply sum_zero. intros ew Hew. destruct (Nat.eqb_spec (e_seq (fst ew)) b) as [Es|]; [|reflexivity]. cbn [ind]. now apply edge_val_after.
Qed.
Definition result_cells : list (nat * nat * Z * option T) :=
  flat_map (fun t => map (fun '(x, ew) => ((t, e_seq (fst ew), e_emit (fst ew)), x)) (combine (normalize add quot zero is_zero edges (buf t)) edges)) (seq 0 n_frames).
Lemma key_eqb_spec x y : key_eqb x y = true <-> x = y.
Proof.
  destruct x as [[a1 a2] a3], y as [[b1 b2] b3]. unfold key_eqb. cbn [fst snd]. rewrite !andb_true_iff, !Nat.eqb_eq, Z.eqb_eq. split; [intros [[-> ->] ->]; reflexivity|intros [= -> -> ->]; auto].
Qed.
Lemma adders_eq : result_adders n_frames edges (fun t => normalize add quot zero is_zero edges (buf t)) = map (fun g => Start (fst g) (snd g)) result_cells.
Proof.
  unfold result_adders, result_cells. induction (seq 0 n_frames) as [|t l IH]; [reflexivity|]. cbn [flat_map]. rewrite map_app. f_equal; [|exact IH]. rewrite map_map. apply map_ext. now intros [x ew].
Qed.
Definition norm_val t ew : option T := let s := seq_sum add zero edges (buf t) (e_seq (fst ew)) in if is_zero s && is_zero (edge_val t ew) then None else Some (quot (edge_val t ew) s).
Lemma cells_eq : result_cells = flat_map (fun t => map (fun ew => ((t, e_seq (fst ew), e_emit (fst ew)), norm_val t ew)) edges) (seq 0 n_frames).
Proof.
  unfold result_cells. apply flat_map_ext. intros t. unfold normalize. rewrite buf_eq, combine_map, map_map, combine_map, map_map. apply map_ext. intros ew. unfold norm_val. now rewrite buf_eq.
Qed.
Lemma result_at out t c : completes (add_step key_eqb padd) added (fun _ => zero) (result_adders n_frames edges (fun t => normalize add quot zero is_zero edges (buf t))) out -> t < n_frames ->
  out (t, b, c) = if t <? n then if is_zero total_b then zero else quot (sum_paths add mul zero one am edges s0 s1 n (has_label t c)) total_b else zero.
Proof.
  rewrite adders_eq, cells_eq. intros H Ht.
  assert (Hnone : seq_sum add zero edges (buf t) b = zero -> out (t, b, c) = zero).
  { intros Hz. apply (cell_none key_eqb key_eqb_spec _ _ H). apply Forall_forall. intros g Hg Hk. apply in_flat_map in Hg. destruct Hg as (t'&_&Hg). apply in_map_iff in Hg. destruct Hg as (ew&<-&Hew).
    apply key_eqb_spec in Hk. cbn [fst snd] in *. injection Hk as <- Hs _. unfold norm_val. rewrite <- Hs, Hz, is_zero_z. cbn [andb].
    assert (Ez : edge_val t ew = zero); [|now rewrite Ez, is_zero_z]. rewrite seq_sum_eq in Hz. pose proof (sum_all_zero _ _ Hz ew Hew) as Z. cbn beta in Z. rewrite <- Hs, Nat.eqb_refl in Z. exact Z. }
  pose proof (seq_sum_b t Ht) as Hsum. destruct (Nat.ltb_spec t n) as [Hlt|Hge]; [|auto]. destruct (is_zero total_b) eqn:Ez; [apply is_zero_t in Ez; apply Hnone; congruence|].
  assert (Hnz : total_b <> zero) by (intros E; rewrite E, is_zero_z in Ez; discriminate).
  assert (Hval : forall ew, e_seq (fst ew) = b -> norm_val t ew = Some (quot (edge_val t ew) total_b)) by (intros ew Es; unfold norm_val; now rewrite Es, Hsum, Ez).
  rewrite (cell_some key_eqb key_eqb_spec _ _ H).
  - rewrite sum_flat_map. transitivity (sum (seq 0 n_frames) (fun t' => ind (t =? t') (sum edges (fun ew => ind ((e_seq (fst ew) =? b) && (e_emit (fst ew) =? c)%Z) (quot (edge_val t ew) total_b))))).
    + apply sum_ext. intros t' _. rewrite sum_map. destruct (Nat.eqb_spec t t') as [<-|Hne].
      * cbn [ind]. apply sum_ext. intros ew Hew. unfold key_eqb. cbn [fst snd]. rewrite Nat.eqb_refl, (Nat.eqb_sym b), (Z.eqb_sym c). cbn [andb]. destruct (Nat.eqb_spec (e_seq (fst ew)) b) as [Es|]; [|reflexivity].
        now rewrite (Hval ew Es).
      * cbn [ind]. apply sum_zero. intros ew _. unfold key_eqb. cbn [fst snd]. destruct (Nat.eqb_spec t t'); [congruence|reflexivity].
    + assert (Hone : forall v k m, k <= t < k + m -> sum (seq k m) (fun t' => ind (t =? t') v) = v).
      { intros v k m. revert k. induction m as [|m IH]; intros k Hk; [lia|]. cbn [seq]. rewrite sum_cons. destruct (Nat.eqb_spec t k) as [->|Hne].
        - cbn [ind]. rewrite sum_zero; [apply add_zero_r|]. intros t' Ht'. apply in_seq in Ht'. destruct (Nat.eqb_spec k t'); [lia|reflexivity].
        - cbn [ind]. rewrite add_zero_l. apply IH. lia. }
      rewrite Hone by lia. rewrite <- (edges_sum t (fun c' => (c' =? c)%Z) Hlt : _ = sum_paths add mul zero one am edges s0 s1 n (has_label t c)). rewrite <- sum_quot by exact Hnz. apply sum_ext. intros ew _.
      destruct (_ && _); cbn [ind]; [reflexivity|]. symmetry. exact (nl_quot_zero _ _ _ _ _ _ N _ Hnz).
  - apply Forall_forall. intros g Hg Hk. apply in_flat_map in Hg. destruct Hg as (t'&_&Hg). apply in_map_iff in Hg. destruct Hg as (ew&<-&Hew). apply key_eqb_spec in Hk. cbn [fst snd] in *. injection Hk as <- Hs _.
    rewrite Hval by congruence. discriminate.
Qed.
End One.

(* ---------- there is a result ---------- *)
Lemma states_exist fw t prev : exists next, next_states add mul zero is_zero edges am fw t prev next.
Proof.
  unfold next_states. assert (E : exists gs, frame_adders mul is_zero edges am fw t prev = map (fun g => Start (fst g) (snd g)) gs).
  { unfold frame_adders. clear. induction edges as [|ew l (gs&IH)]; [exists []; reflexivity|]. cbn [flat_map]. destruct (is_zero _); [exists gs; exact IH|]. eexists ((_, _) :: gs). cbn. rewrite IH. reflexivity. }
  destruct E as (gs&->). apply atomic_exists.
Qed.
Lemma fwd_exist k : exists f, f 0 = start_states zero one start_end /\ forall t, t < k -> next_states add mul zero is_zero edges am true t (f t) (f (S t)).
Proof.
  induction k as [|k (f&I0&IS)]; [exists (fun _ => start_states zero one start_end); split; [reflexivity|intros; lia]|].
  destruct (states_exist true k (f k)) as (m&Hm). exists (fun t => if t =? S k then m else f t). split; [exact I0|].
  intros t Ht. destruct (Nat.eqb_spec t (S k)); [lia|]. destruct (Nat.eqb_spec (S t) (S k)) as [E|E]; [injection E as ->; exact Hm|apply IS; lia].
Qed.
Lemma bwd_exist k : k <= n_frames -> exists f, f n_frames = (fun _ => zero) /\ forall t, n_frames - k <= t < n_frames ->
  next_states add mul zero is_zero edges am false t (set_end_states one n_frames start_end index t (f (S t))) (f t).
Proof.
  induction k as [|k IH]; intros Hk; [exists (fun _ _ => zero); split; [reflexivity|intros; lia]|]. destruct (IH ltac:(lia)) as (f&I0&IS).
  set (t0 := n_frames - S k). destruct (states_exist false t0 (set_end_states one n_frames start_end index t0 (f (S t0)))) as (m&Hm). exists (fun t => if t =? t0 then m else f t). split.
  - destruct (Nat.eqb_spec n_frames t0); [lia|exact I0].
  - intros t Ht. destruct (Nat.eqb_spec (S t) t0); [lia|]. destruct (Nat.eqb_spec t t0) as [->|]; [exact Hm|apply IS; lia].
Qed.
Lemma result_exists : exists out sums, fast_baum_welch add mul quot zero one is_zero n_frames start_end edges am index out sums.
Proof.
  destruct (fwd_exist n_frames) as (fw&F0&FS). destruct (bwd_exist n_frames (Nat.le_refl _)) as (bw&B0&BS).
  destruct (atomic_exists key_eqb padd (fun _ => zero) (result_cells fw bw)) as (out&Ho). rewrite <- adders_eq in Ho.
  eexists out, _, fw, bw. split; [exact F0|]. split; [exact FS|]. split; [exact B0|]. split; [intros t Ht; apply BS; lia|]. cbv zeta. split; [reflexivity|]. exact Ho.
Qed.
End Num.
